(** Property C56: the neighbourhoods and the local mixture of MultivariateKnn. *)
From Verif Require Import Knn BaseFacts ListFacts PrimFacts LogSpaceFacts P02_LogSpace P20_DummyCode P22_Holders P30_Answers.
From Coq Require Import List ZArith Reals Bool Lia Lra Permutation Sorted.
Import ListNotations.
Local Open Scope R_scope.

(* ------------------------------------------------------------------ *)
(** ** Specification *)

(** Euclidean distance. *)
Fixpoint squares (p q : list R) : R :=
  match p, q with a :: p', b :: q' => (a - b) ^ 2 + squares p' q' | _, _ => 0 end.
Definition far (D : list (list R)) (x : list R) (j : nat) : R := sqrt (squares (nth j D []) x).
(** What KDTree returns: every row once, nearer rows first. *)
Definition near_ok (near : list (list R) -> list R -> list nat) : Prop := forall D x,
  Permutation (near D x) (seq 0 (length D)) /\ StronglySorted (fun i j => far D x i <= far D x j) (near D x).
(** What rng.choice without replacement returns. *)
Definition choose_ok (choose : list nat -> nat -> list nat) : Prop := forall l k, NoDup l -> (k <= length l)%nat ->
  length (choose l k) = k /\ NoDup (choose l k) /\ incl (choose l k) l.
(** How many rows are nearer than [r], or within [r]. *)
Definition nearer (D : list (list R)) (x : list R) (r : R) : list nat :=
  filter (fun j => Rltb (far D x j) r) (seq 0 (length D)).
Definition within (D : list (list R)) (x : list R) (r : R) : list nat :=
  filter (fun j => Rleb (far D x j) r) (seq 0 (length D)).

(* ------------------------------------------------------------------ *)
(** ** Lists *)

Lemma pick_filter {A} (P : A -> bool) (l : list A) d :
  map (fun i => nth i l d) (filter (fun i => P (nth i l d)) (seq 0 (length l))) = filter P l.
Proof.
  assert (G : forall k, map (fun i => nth (i - k) l d) (filter (fun i => P (nth (i - k) l d)) (seq k (length l))) = filter P l).
  { induction l as [|a l IH]; intros k; [reflexivity|]. cbn [length seq filter].
    assert (E0 : nth (k - k) (a :: l) d = a) by (rewrite Nat.sub_diag; reflexivity). rewrite E0.
    assert (E : map (fun i => nth (i - k) (a :: l) d) (filter (fun i => P (nth (i - k) (a :: l) d)) (seq (S k) (length l))) = filter P l).
    { rewrite <- (IH (S k)).
      assert (X : forall i, In i (seq (S k) (length l)) -> nth (i - k) (a :: l) d = nth (i - S k) l d).
      { intros i Hi. apply in_seq in Hi. replace (i - k)%nat with (S (i - S k)) by lia. reflexivity. }
      rewrite (filter_ext_in _ (fun i => P (nth (i - S k) l d))) by (intros i Hi; rewrite X by exact Hi; reflexivity).
      apply map_ext_in. intros i Hi. apply filter_In in Hi. apply X. apply Hi. }
    destruct (P a); cbn [map]; [rewrite E0|]; rewrite E; reflexivity. }
  specialize (G 0%nat). rewrite <- G.
  rewrite (filter_ext_in _ (fun i => P (nth (i - 0) l d))) by (intros i _; rewrite Nat.sub_0_r; reflexivity).
  apply map_ext. intros i. rewrite Nat.sub_0_r. reflexivity.
Qed.

Lemma ss_app {A} (R : A -> A -> Prop) l1 l2 : StronglySorted R (l1 ++ l2) ->
  StronglySorted R l1 /\ StronglySorted R l2 /\ forall a b, In a l1 -> In b l2 -> R a b.
Proof.
  induction l1 as [|a l1 IH]; cbn [app]; intros H.
  - split; [constructor|]. split; [exact H|]. intros a b [].
  - apply StronglySorted_inv in H. destruct H as [H F]. destruct (IH H) as [I1 [I2 I3]]. rewrite Forall_forall in F.
    split; [constructor; [exact I1|apply Forall_forall; intros b Hb; apply F, in_or_app; auto]|]. split; [exact I2|].
    intros b c [<-|Hb] Hc; [apply F, in_or_app; auto|auto].
Qed.
Lemma filter_none {A} (P : A -> bool) l : (forall a, In a l -> P a = false) -> filter P l = [].
Proof.
  induction l as [|a l IH]; intros H; [reflexivity|]. cbn. rewrite (H a (or_introl eq_refl)). apply IH. intros b Hb. apply H. right. exact Hb.
Qed.
Lemma filter_length_le {A} (P : A -> bool) l : (length (filter P l) <= length l)%nat.
Proof. induction l as [|a l IH]; cbn; [lia|]. destruct (P a); cbn; lia. Qed.
Lemma perm_filter {A} (P : A -> bool) l l' : Permutation l l' -> Permutation (filter P l) (filter P l').
Proof.
  induction 1 as [|a l l' _ IH|a b l|l l' l'' _ IH1 _ IH2]; cbn.
  - constructor.
  - destruct (P a); [constructor; exact IH|exact IH].
  - destruct (P a), (P b); try apply Permutation_refl. apply perm_swap.
  - etransitivity; eassumption.
Qed.

Lemma euclid_far D x j : euclid (nth j D []) x = far D x j.
Proof.
  unfold euclid, far. f_equal. generalize (nth j D []). intros p. revert x. induction p as [|a p IH]; intros [|b x]; try reflexivity.
  cbn [combine map squares fst snd]. unfold Rsum in *. cbn [fold_right]. rewrite IH. ring.
Qed.

Section Nearest.
  Variables (near : list (list R) -> list R -> list nat) (choose : list nat -> nat -> list nat).
  Hypothesis (Hnear : near_ok near) (Hchoose : choose_ok choose).
  Variables (D : list (list R)) (x : list R) (K : nat).
  Hypothesis HK : (1 <= K <= length D)%nat.
  Notation f := (far D x).
  Notation order := (near D x).

  (** The distance of the K-th row, and the rows that are no farther. *)
  Definition radius : R := f (nth (K - 1) order 0%nat).
  Definition candidates : list nat := filter (fun j => Rleb (f j) radius) order.

  Lemma order_length : length order = length D.
  Proof. destruct (Hnear D x) as [P _]. apply Permutation_length in P. rewrite seq_length in P. exact P. Qed.
  Lemma order_nodup : NoDup order.
  Proof. destruct (Hnear D x) as [P _]. apply (Permutation_NoDup (Permutation_sym P)), seq_NoDup. Qed.

  (** The order, split before the K-th row. *)
  Lemma order_split : exists l1 j l2, order = l1 ++ j :: l2 /\ length l1 = (K - 1)%nat /\ radius = f j /\
    (forall a, In a l1 -> f a <= f j) /\ (forall b, In b l2 -> f j <= f b).
  Proof.
    assert (L : (K - 1 < length order)%nat) by (rewrite order_length; lia).
    destruct (nth_split order 0%nat L) as [l1 [l2 [E El]]]. exists l1, (nth (K - 1) order 0%nat), l2.
    split; [exact E|]. split; [exact El|]. split; [reflexivity|].
    destruct (Hnear D x) as [_ S]. rewrite E in S. apply ss_app in S. destruct S as [_ [S2 S3]].
    apply StronglySorted_inv in S2. destruct S2 as [_ F]. rewrite Forall_forall in F.
    split; [intros a Ha; apply (S3 a _ Ha); left; reflexivity|exact F].
  Qed.
  Lemma candidates_split : exists l1 j l2, order = l1 ++ j :: l2 /\ length l1 = (K - 1)%nat /\
    candidates = l1 ++ j :: filter (fun j => Rleb (f j) radius) l2.
  Proof.
    destruct order_split as [l1 [j [l2 [E [El [Er [H1 H2]]]]]]]. exists l1, j, l2. split; [exact E|]. split; [exact El|].
    unfold candidates. rewrite E, filter_app. cbn [filter]. rewrite Er. rewrite (proj2 (Rleb_true (f j) (f j))) by lra.
    f_equal. apply filter_all. intros a Ha. apply Rleb_true. auto.
  Qed.

  Lemma nearest_cases : nearest near choose K D x =
    if (K <? length candidates)%nat then choose candidates K else candidates.
  Proof.
    assert (E : map (fun i => nth i order 0%nat)
      (filter (fun i => Rleb (nth i (map (fun j => euclid (nth j D []) x) order) 0) (nth (K - 1) (map (fun j => euclid (nth j D []) x) order) 0))
        (seq 0 (length (map (fun j => euclid (nth j D []) x) order)))) = candidates).
    { rewrite map_length.
      assert (N : forall i, (i < length order)%nat -> nth i (map (fun j => euclid (nth j D []) x) order) 0 = f (nth i order 0%nat)).
      { intros i Hi. rewrite (map_ext _ f) by (intros j; apply euclid_far). rewrite (nth_indep _ 0 (f 0%nat)) by (rewrite map_length; exact Hi). apply (map_nth f). }
      rewrite (filter_ext_in _ (fun i => Rleb (f (nth i order 0%nat)) radius)).
      - apply (pick_filter (fun j => Rleb (f j) radius)).
      - intros i Hi. apply in_seq in Hi. rewrite !N; [reflexivity| |lia]. rewrite order_length. lia. }
    unfold nearest. cbv zeta. rewrite <- (map_length (fun i => nth i order 0%nat)), E.
    destruct (Nat.ltb_spec K (length candidates)) as [H|H]; [reflexivity|].
    destruct candidates_split as [l1 [j [l2 [E1 [El E2]]]]]. rewrite E2 in *. rewrite app_length in H. cbn [length] in H.
    destruct (filter (fun j0 => Rleb (f j0) radius) l2) as [|b l]; [|cbn [length] in H; lia].
    rewrite E1. rewrite firstn_app. rewrite firstn_all2 by lia. f_equal. replace (K - length l1)%nat with 1%nat by lia. reflexivity.
  Qed.

  Lemma candidates_length : (K <= length candidates)%nat.
  Proof. destruct candidates_split as [l1 [j [l2 [_ [El ->]]]]]. rewrite app_length. cbn [length]. lia. Qed.
  Lemma candidates_nodup : NoDup candidates.
  Proof. apply NoDup_filter, order_nodup. Qed.
  Lemma candidates_in j : In j candidates <-> (j < length D)%nat /\ f j <= radius.
  Proof.
    unfold candidates. rewrite filter_In, Rleb_true. destruct (Hnear D x) as [P _].
    split; intros [H1 H2]; (split; [|exact H2]).
    - apply (Permutation_in _ P), in_seq in H1. lia.
    - apply (Permutation_in _ (Permutation_sym P)), in_seq. lia.
  Qed.

  Lemma nearest_spec : length (nearest near choose K D x) = K /\ NoDup (nearest near choose K D x) /\
    incl (nearest near choose K D x) candidates.
  Proof.
    rewrite nearest_cases. pose proof candidates_length. destruct (Nat.ltb_spec K (length candidates)) as [H1|H1].
    - apply Hchoose; [apply candidates_nodup|lia].
    - split; [lia|]. split; [apply candidates_nodup|apply incl_refl].
  Qed.
  (** Fewer than K rows are nearer than the radius. *)
  Lemma nearer_radius r : r <= radius -> (length (nearer D x r) < K)%nat.
  Proof.
    intros Hr. destruct order_split as [l1 [j [l2 [E [El [Er [H1 H2]]]]]]].
    destruct (Hnear D x) as [P _]. unfold nearer.
    rewrite <- (Permutation_length (perm_filter (fun j => Rltb (f j) r) _ _ P)), E, filter_app. cbn [filter].
    assert (F : forall b, f j <= f b -> Rltb (f b) r = false) by (intros b Hb; apply Rltb_false; rewrite Er in Hr; lra).
    rewrite (F j) by lra. rewrite (filter_none _ l2) by (intros b Hb; apply F; auto). rewrite app_nil_r.
    pose proof (filter_length_le (fun j => Rltb (f j) r) l1). lia.
  Qed.
  Lemma exact_radius r : length (within D x r) = K -> radius <= r.
  Proof.
    intros Hr. destruct (Rle_lt_dec radius r) as [H|H]; [exact H|exfalso].
    destruct order_split as [l1 [j [l2 [E [El [Er [H1 H2]]]]]]]. destruct (Hnear D x) as [P _]. unfold within in Hr.
    rewrite <- (Permutation_length (perm_filter (fun j => Rleb (f j) r) _ _ P)), E, filter_app in Hr. cbn [filter] in Hr.
    assert (F : forall b, f j <= f b -> Rleb (f b) r = false).
    { intros b Hb. apply not_true_is_false. rewrite Rleb_true. rewrite Er in H. lra. }
    rewrite (F j) in Hr by lra. rewrite (filter_none _ l2) in Hr by (intros b Hb; apply F; auto). rewrite app_nil_r in Hr.
    pose proof (filter_length_le (fun j => Rleb (f j) r) l1). lia.
  Qed.
End Nearest.

(** The neighbours are K rows, and fewer than K rows are nearer than any of them.  Full
    statement: no row that is left out is nearer than one that is taken; it fails when rows
    are equally far, see [C56_nearest_refuted]. *)
Theorem C56_nearest_partial : forall near choose K D x, near_ok near -> choose_ok choose -> (1 <= K <= length D)%nat ->
  let ns := nearest near choose K D x in
  length ns = K /\ NoDup ns /\ forall j, In j ns -> (j < length D)%nat /\ (length (nearer D x (far D x j)) < K)%nat.
Proof.
  intros near choose K D x Hn Hc HK ns. destruct (nearest_spec near choose Hn Hc D x K HK) as [H1 [H2 H3]].
  split; [exact H1|]. split; [exact H2|]. intros j Hj. apply H3 in Hj. apply (candidates_in near Hn D x K ltac:(lia)) in Hj.
  split; [apply Hj|]. apply (nearer_radius near Hn D x K HK). apply Hj.
Qed.
Print Assumptions C56_nearest_partial.

(** Where exactly K rows are within some distance, the neighbours are those. *)
Theorem C56_nearest_exact : forall near choose K D x r, near_ok near -> choose_ok choose -> (1 <= K)%nat ->
  length (within D x r) = K -> Permutation (nearest near choose K D x) (within D x r).
Proof.
  intros near choose K D x r Hn Hc HK Hr.
  assert (HK' : (1 <= K <= length D)%nat).
  { split; [exact HK|]. rewrite <- Hr. unfold within. pose proof (filter_length_le (fun j => Rleb (far D x j) r) (seq 0 (length D))).
    rewrite seq_length in H. exact H. }
  destruct (nearest_spec near choose Hn Hc D x K HK') as [H1 [H2 H3]].
  pose proof (exact_radius near Hn D x K HK' r Hr) as Hrad.
  apply NoDup_Permutation_bis; [exact H2|lia|].
  intros j Hj. apply H3 in Hj. apply (candidates_in near Hn D x K ltac:(lia)) in Hj. unfold within. apply filter_In. split; [apply in_seq; lia|].
  apply Rleb_true. lra.
Qed.
Print Assumptions C56_nearest_exact.

(* ------------------------------------------------------------------ *)
(** ** Localities *)

Lemma seq_each {A B} (f : A -> res B) l out : rsequence (map f l) = Ok out <-> Forall2 (fun a b => f a = Ok b) l out.
Proof.
  rewrite rsequence_ok. split.
  - revert out. induction l as [|a l IH]; intros [|b out] E; try discriminate; [constructor|]. injection E as E1 E2.
    constructor; [exact E1|]. apply IH. exact E2.
  - induction 1 as [|a b l out E _ IH]; [reflexivity|]. cbn. rewrite E, IH. reflexivity.
Qed.
Lemma f2_nth {A B} (P : A -> B -> Prop) l m i a b : Forall2 P l m -> nth_error l i = Some a -> nth_error m i = Some b -> P a b.
Proof.
  intros H. revert i. induction H as [|x y l m Hxy _ IH]; intros [|i] Ea Eb; cbn in *; try discriminate.
  - injection Ea as <-. injection Eb as <-. exact Hxy.
  - eapply IH; eassumption.
Qed.
Lemma f2_len {A B} (P : A -> B -> Prop) l m : Forall2 P l m -> length l = length m.
Proof. induction 1; cbn; auto. Qed.

(** The points that represent the rows and the constraints: every nominal value by its
    dummy code. *)
Record points (levels : dict Z) (members : list (list ext)) (targets : list Z) (constraints : dict ext)
  (De D : list (list R)) (x : list R) : Prop := {
  pt_given : Forall2 (fun r e => knn_code levels (dkeys constraints) (skipn (length targets) r) = Ok e) members De;
  pt_all : Forall2 (fun r d => exists q e, knn_code levels targets (firstn (length targets) r) = Ok q /\
    knn_code levels (dkeys constraints) (skipn (length targets) r) = Ok e /\ d = q ++ e) members D;
  pt_x : knn_code levels (dkeys constraints) (map snd constraints) = Ok x
}.

Lemma neighborhoods_points near choose levels K M members targets constraints exs :
  neighborhoods near choose levels K M members targets constraints = Ok exs ->
  (K <= length members)%nat /\ constraints <> [] /\ ~ In NaN (map snd constraints) /\
  exists De D x, points levels members targets constraints De D x /\ length De = length members /\ length D = length members /\
    exs = map (fun j => firstn (Nat.min M K) (near D (nth j D []))) (nearest near choose K De x).
Proof.
  unfold neighborhoods. destruct constraints as [|c0 cs]; [discriminate|]. set (constraints := c0 :: cs).
  destruct (existsb eisnan (map snd constraints)) eqn:En; [discriminate|].
  destruct (Nat.ltb_spec (length members) K) as [HK|HK]; [discriminate|].
  destruct (rsequence (map (fun r => knn_code levels targets (firstn (length targets) r)) members)) as [Dq|] eqn:Eq; [|discriminate].
  cbn [rbind]. destruct (rsequence (map (fun r => knn_code levels (dkeys constraints) (skipn (length targets) r)) members)) as [De|] eqn:Ee; [|discriminate].
  cbn [rbind]. destruct (knn_code levels (dkeys constraints) (map snd constraints)) as [x|] eqn:Ex; [|discriminate]. cbn [rbind].
  intros E. injection E as <-. apply seq_each in Eq. apply seq_each in Ee.
  split; [exact HK|]. split; [discriminate|]. split.
  { intros Hn. apply not_true_iff_false in En. apply En. apply existsb_exists. exists NaN. split; [exact Hn|reflexivity]. }
  exists De, (map (fun qe => fst qe ++ snd qe) (combine Dq De)), x.
  pose proof (f2_len _ _ _ Eq) as L1. pose proof (f2_len _ _ _ Ee) as L2.
  split.
  - split; [exact Ee| |exact Ex]. clear - Eq Ee. revert De Ee. induction Eq as [|r q members Dq Hq _ IH]; intros De Ee; inversion Ee; subst; cbn; constructor.
    + exists q, y. auto.
    + apply IH. assumption.
  - split; [lia|]. split; [rewrite map_length, combine_length; lia|reflexivity].
Qed.

(** There are K localities.  The locality of a neighbour consists of min(M, K) rows, none
    of which is farther from the neighbour, all variables taken together, than a row that
    is left out. *)
Theorem C56_locality_partial : forall near choose levels K M members targets constraints exs,
  near_ok near -> choose_ok choose -> (1 <= K)%nat ->
  neighborhoods near choose levels K M members targets constraints = Ok exs ->
  exists De D x, points levels members targets constraints De D x /\
  length exs = K /\
  forall i ex, nth_error exs i = Some ex -> exists j, nth_error (nearest near choose K De x) i = Some j /\
    length ex = Nat.min M K /\ NoDup ex /\ (forall a, In a ex -> (a < length members)%nat) /\
    forall a b, In a ex -> (b < length members)%nat -> ~ In b ex ->
      far D (nth j D []) a <= far D (nth j D []) b.
Proof.
  intros near choose levels K M members targets constraints exs Hn Hc HK E.
  destruct (neighborhoods_points _ _ _ _ _ _ _ _ _ E) as [HK' [_ [_ [De [D [x [P [L1 [L2 ->]]]]]]]]].
  exists De, D, x. split; [exact P|]. split.
  { rewrite map_length. apply (C56_nearest_partial near choose K De x Hn Hc). lia. }
  intros i ex Hj. rewrite nth_error_map in Hj. destruct (nth_error (nearest near choose K De x) i) as [j|]; [|discriminate].
  injection Hj as <-. exists j. split; [reflexivity|].
  destruct (Hn D (nth j D [])) as [Pm S]. pose proof (Permutation_length Pm) as L. rewrite seq_length in L.
  assert (Nd : NoDup (near D (nth j D []))) by (apply (Permutation_NoDup (Permutation_sym Pm)), seq_NoDup).
  set (o := near D (nth j D [])) in *. pose proof (firstn_skipn (Nat.min M K) o) as Sp.
  split; [rewrite firstn_length; lia|]. split.
  { rewrite <- Sp in Nd. clear - Nd. induction (firstn (Nat.min M K) o) as [|a l IH]; [constructor|]. cbn [app] in Nd.
    apply NoDup_cons_iff in Nd. destruct Nd as [N1 N2]. constructor; [intros H; apply N1, in_or_app; auto|apply IH, N2]. }
  split.
  { intros a Ha. assert (Ho : In a o) by (rewrite <- Sp; apply in_or_app; auto). apply (Permutation_in _ Pm), in_seq in Ho. lia. }
  intros a b Ha Hb Hnb. rewrite <- Sp in S. apply ss_app in S. destruct S as [_ [_ S]]. apply (S a b Ha).
  assert (Ho : In b o) by (apply (Permutation_in _ (Permutation_sym Pm)), in_seq; lia).
  rewrite <- Sp in Ho. apply in_app_or in Ho. tauto.
Qed.
Print Assumptions C56_locality_partial.


Lemma ex_bounds near choose levels K M members targets constraints exs ex :
  near_ok near -> choose_ok choose -> (1 <= K)%nat ->
  neighborhoods near choose levels K M members targets constraints = Ok exs -> In ex exs ->
  length ex = Nat.min M K /\ forall a, In a ex -> (a < length members)%nat.
Proof.
  intros Hn Hc HK E Hex. destruct (C56_locality_partial _ _ _ _ _ _ _ _ _ Hn Hc HK E) as [De [D [x [_ [L H]]]]].
  apply In_nth_error in Hex. destruct Hex as [i Ei]. destruct (H i ex Ei) as [j [_ [A [_ [B _]]]]]. auto.
Qed.

(* ------------------------------------------------------------------ *)
(** ** The local models *)

(** The share of a value among the rows, the deviation, the bell curve, and the density of a variable
    in a locality. *)
Definition share (x : R) (l : list R) : R := INR (length (filter (fun y => Reqb y x) l)) / INR (length l).
Definition spread (l : list R) : R := sqrt (Rsum (map (fun x => (x - Rsum l / INR (length l)) ^ 2) l) / INR (length l)).
Definition bell (mu s x : R) : R := exp (- ((x - mu) * (x - mu)) / (2 * (s * s))) / (s * sqrt (2 * PI)).
Definition local_pdf (levels : dict Z) (q : Z) (l : list R) (x : R) : R :=
  match dget q levels with
  | Some _ => share x l
  | None => bell (Rsum l / INR (length l)) (Rmax (spread l) (1 / 100)) x
  end.
(** The value of a cell. *)
Definition fin (e : ext) : R := match e with Fin r => r | _ => 0 end.
Definition column (members : list (list ext)) (i : nat) (ex : list nat) : list R :=
  map (fun j => fin (nth i (nth j members []) NaN)) ex.
(** A value that the variable can have. *)
Definition possible (levels : dict Z) (q : Z) (v : ext) : Prop :=
  match dget q levels with Some k => category k v | None => exists r, v = Fin r end.

Lemma std_spread l : std l = spread l.
Proof.
  unfold std, spread, mean. rewrite map_length. do 3 f_equal. apply map_ext. intros x. ring.
Qed.
Lemma norm_bell x mu s : 0 < s -> exp (norm_logpdf x mu s) = bell mu s x.
Proof.
  intros Hs. unfold norm_logpdf, bell. pose proof PI_RGT_0 as HP.
  assert (H2 : 0 < 2 * PI) by lra. assert (Hq : 0 < sqrt (2 * PI)) by (apply sqrt_lt_R0; lra).
  replace (- ((x - mu) / s * ((x - mu) / s)) / 2 - ln (2 * PI) / 2 - ln s)
    with (- ((x - mu) * (x - mu)) / (2 * (s * s)) + - (ln (2 * PI) / 2 + ln s)) by (field; lra).
  rewrite exp_plus, exp_Ropp, exp_plus, exp_ln by exact Hs.
  assert (E : exp (ln (2 * PI) / 2) = sqrt (2 * PI)).
  { apply Rsqr_inj; [left; apply exp_pos|left; exact Hq|]. rewrite Rsqr_sqrt by lra. unfold Rsqr. rewrite <- exp_plus.
    replace (ln (2 * PI) / 2 + ln (2 * PI) / 2) with (ln (2 * PI)) by lra. apply exp_ln. exact H2. }
  rewrite E. unfold Rdiv. f_equal. f_equal. ring.
Qed.

Lemma zsum_counts l n : (forall x, In x l -> (0 <= trunc x < Z.of_nat n)%Z) ->
  zsum (map (fun c => Z.of_nat (length (filter (fun y => (trunc y =? Z.of_nat c)%Z) l))) (seq 0 n)) = Z.of_nat (length l).
Proof.
  induction l as [|a l IH]; intros H.
  - cbn. clear. generalize 0%nat. induction n as [|n IH]; intros k; cbn; [reflexivity|]. rewrite IH. reflexivity.
  - assert (E : forall k, zsum (map (fun c => Z.of_nat (length (filter (fun y => (trunc y =? Z.of_nat c)%Z) (a :: l)))) (seq k n)) =
      (zsum (map (fun c => Z.of_nat (length (filter (fun y => (trunc y =? Z.of_nat c)%Z) l))) (seq k n)) +
       if (Z.of_nat k <=? trunc a) && (trunc a <? Z.of_nat (k + n)) then 1 else 0)%Z).
    { clear. induction n as [|n IH]; intros k; cbn [seq map].
      - unfold zsum. cbn [fold_right]. destruct (Z.leb_spec (Z.of_nat k) (trunc a)), (Z.ltb_spec (trunc a) (Z.of_nat (k + 0))); cbn; lia.
      - unfold zsum in *. cbn [fold_right]. rewrite IH. cbn [filter].
        destruct (Z.eqb_spec (trunc a) (Z.of_nat k)), (Z.leb_spec (Z.of_nat k) (trunc a)), (Z.leb_spec (Z.of_nat (S k)) (trunc a)),
          (Z.ltb_spec (trunc a) (Z.of_nat (k + S n))), (Z.ltb_spec (trunc a) (Z.of_nat (S k + n))); cbn [andb length]; lia. }
    rewrite E. rewrite IH by (intros x Hx; apply H; right; exact Hx). specialize (H a (or_introl eq_refl)).
    destruct (Z.leb_spec (Z.of_nat 0) (trunc a)), (Z.ltb_spec (trunc a) (Z.of_nat (0 + n))); cbn [andb length]; lia.
Qed.

(** A locality of possible values teaches a model whose density is [local_pdf]. *)
Lemma learn_pdf levels q l : l <> [] -> Forall (possible levels q) (map Fin l) ->
  exists m, learn levels q l = Ok m /\
    forall v, possible levels q v -> exists e, local_logpdf m v = Ok e /\ weight_of e (local_pdf levels q l (fin v)).
Proof.
  intros Hl H. unfold learn, local_pdf, possible in *. destruct (dget q levels) as [k|].
  - assert (Hi : forall x, In x l -> exists z, x = IZR z /\ (0 <= z < k)%Z).
    { intros x Hx. rewrite Forall_forall in H. destruct (H (Fin x)) as [z [E Hz]]; [apply in_map, Hx|]. injection E as ->. eauto. }
    rewrite (proj2 (forallb_forall _ _)).
    2:{ intros x Hx. destruct (Hi x Hx) as [z [-> Hz]]. apply andb_true_intro. split; [apply Rleb_true, IZR_le; lia|apply Rltb_true, IZR_lt; lia]. }
    eexists. split; [reflexivity|]. intros v [z [-> Hz]]. cbn [local_logpdf fin]. unfold np_index.
    rewrite (proj2 (is_intb_true _)) by eauto. rewrite trunc_IZR.
    destruct (Z.ltb_spec z 0); [lia|]. destruct (Z.leb_spec 0 z); [|lia].
    rewrite map_map, nth_error_map.
    assert (Es : nth_error (seq 0 (Z.to_nat k)) (Z.to_nat z) = Some (Z.to_nat z)) by (apply nth_error_seq0; lia).
    rewrite Es. cbn [option_map rbind]. rewrite zsum_counts.
    2:{ intros x Hx. destruct (Hi x Hx) as [z' [-> Hz']]. rewrite trunc_IZR. lia. }
    assert (Ec : filter (fun y => (trunc y =? Z.of_nat (Z.to_nat z))%Z) l = filter (fun y => Reqb y (IZR z)) l).
    { apply filter_ext_in. intros y Hy. destruct (Hi y Hy) as [z' [-> _]]. rewrite trunc_IZR, Z2Nat.id by lia.
      destruct (Z.eqb_spec z' z) as [->|N]; symmetry; [apply Reqb_true; reflexivity|].
      apply Reqb_false. intros E. apply eq_IZR in E. contradiction. }
    rewrite Ec. eexists. split; [reflexivity|]. unfold share. rewrite !INR_IZR_INZ.
    set (p := IZR (Z.of_nat (length (filter (fun y => Reqb y (IZR z)) l))) / IZR (Z.of_nat (length l))).
    assert (Hp : 0 <= p).
    { unfold p. apply Rmult_le_pos; [apply IZR_le; lia|]. left. apply Rinv_0_lt_compat, IZR_lt. destruct l; [congruence|cbn; lia]. }
    destruct (Rltb 0 p) eqn:E0.
    + apply Rltb_true in E0. left. exists (ln p). split; [reflexivity|]. symmetry. apply exp_ln. exact E0.
    + apply Rltb_false in E0. right. split; [reflexivity|]. lra.
  - eexists. split; [reflexivity|]. intros v [r ->]. cbn [local_logpdf fin]. eexists. split; [reflexivity|]. left.
    eexists. split; [reflexivity|]. symmetry. rewrite <- std_spread. apply norm_bell. pose proof (Rmax_r (std l) (1 / 100)). lra.
Qed.

(* ------------------------------------------------------------------ *)
(** ** The mixture *)

Lemma levels_at_get levels vars i : dget (Z.of_nat i) (levels_at levels vars) =
  match nth_error vars i with Some q => dget q levels | None => None end.
Proof.
  unfold levels_at.
  assert (G : forall vars s i, dget (Z.of_nat (s + i)) (concat (map (fun iv => match dget (snd iv) levels with Some k => [(fst iv, k)] | None => [] end)
    (combine (map Z.of_nat (seq s (length vars))) vars))) = match nth_error vars i with Some q => dget q levels | None => None end).
  { clear. induction vars as [|q vars IH]; intros s i; [destruct i; reflexivity|]. cbn [length seq map combine concat fst snd].
    destruct i as [|i].
    - rewrite Nat.add_0_r. cbn [nth_error]. destruct (dget q levels) as [k|].
      + cbn [app dget]. rewrite Z.eqb_refl. reflexivity.
      + cbn [app]. assert (N : forall vars t, (s < t)%nat -> dget (Z.of_nat s) (concat (map (fun iv => match dget (snd iv) levels with Some k => [(fst iv, k)] | None => [] end)
          (combine (map Z.of_nat (seq t (length vars))) vars))) = None).
        { clear. induction vars as [|q vars IH]; intros t Ht; [reflexivity|]. cbn [length seq map combine concat fst snd].
          destruct (dget q levels); cbn [app dget]; [|apply IH; lia].
          destruct (Z.eqb_spec (Z.of_nat s) (Z.of_nat t)); [lia|]. apply IH. lia. }
        apply N. lia.
    - cbn [nth_error]. specialize (IH (S s) i). replace (S s + i)%nat with (s + S i)%nat in IH by lia. rewrite <- IH.
      destruct (dget q levels) as [k|]; cbn [app dget]; [|reflexivity].
      destruct (Z.eqb_spec (Z.of_nat (s + S i)) (Z.of_nat s)); [lia|reflexivity]. }
  exact (G vars 0%nat i).
Qed.

(** A row that can be represented has possible values. *)
Lemma code_possible levels vars row c i q v : knn_code levels vars row = Ok c ->
  nth_error vars i = Some q -> nth_error row i = Some v -> possible levels q v.
Proof.
  unfold knn_code. destruct (dummy_code row (levels_at levels vars)) as [c'|] eqn:Ec; [|discriminate]. cbn [rbind].
  intros Er Eq Ev. pose proof (levels_at_get levels vars i) as G. rewrite Eq in G. unfold possible.
  destruct (dget q levels) as [k|].
  - assert (Cd : codable (levels_at levels vars) row) by (apply C47_accepts; eauto). exact (Cd i v k Ev G).
  - destruct (C47_blocks _ _ _ Ec) as [bs [-> [Lb B]]].
    assert (Hi : (i < length bs)%nat) by (rewrite Lb; apply nth_error_Some; congruence).
    destruct (nth_error bs i) as [b|] eqn:Eb; [|apply nth_error_None in Eb; lia].
    destruct (B i b Eb) as [v' [Ev' M]]. rewrite G in M. rewrite Ev in Ev'. injection Ev' as <-. subst b.
    unfold reals in Er. apply seq_each in Er. assert (Hin : In v (concat bs)).
    { apply in_concat. exists [v]. split; [apply nth_error_In in Eb; exact Eb|left; reflexivity]. }
    apply In_nth_error in Hin. destruct Hin as [n En]. pose proof (f2_len _ _ _ Er) as Le.
    destruct (nth_error c n) as [r|] eqn:Ecn; [|apply nth_error_None in Ecn; assert ((n < length (concat bs))%nat) by (apply nth_error_Some; congruence); lia].
    pose proof (f2_nth _ _ _ _ _ _ Er En Ecn) as Hr. cbn in Hr. destruct v; try discriminate. eauto.
Qed.

Definition prod (l : list R) : R := fold_right Rmult 1 l.
Lemma weight_add x y a b : weight_of x a -> weight_of y b -> weight_of (eadd x y) (a * b).
Proof.
  intros [[u [-> ->]]|[-> ->]] [[w [-> ->]]|[-> ->]]; cbn.
  - left. exists (u + w). split; [reflexivity|]. rewrite exp_plus. reflexivity.
  - right. split; [reflexivity|ring].
  - right. split; [reflexivity|ring].
  - right. split; [reflexivity|ring].
Qed.
Lemma esum_weights l w : Forall2 weight_of l w -> weight_of (esum l) (prod w).
Proof.
  intros H. unfold esum. assert (G : forall acc a, weight_of acc a -> weight_of (fold_left eadd l acc) (a * prod w)).
  { induction H as [|x b l w Hx _ IH]; intros acc a Ha; cbn [fold_left prod fold_right].
    - rewrite Rmult_1_r. exact Ha.
    - fold (prod w). replace (a * (b * prod w)) with (a * b * prod w) by ring. apply IH. apply weight_add; assumption. }
  replace (prod w) with (1 * prod w) by ring. apply G. left. exists 0. split; [reflexivity|]. symmetry. apply exp_0.
Qed.

(** The density of the product model of a locality, and of the mixture of the localities. *)
Definition product_pdf (levels : dict Z) (members : list (list ext)) (targets : dict ext) (ex : list nat) : R :=
  prod (map (fun iqv => local_pdf levels (fst (snd iqv)) (column members (fst iqv) ex) (fin (snd (snd iqv))))
    (combine (seq 0 (length targets)) targets)).
Definition mixture_pdf (levels : dict Z) (members : list (list ext)) (targets : dict ext) (exs : list (list nat)) : R :=
  Rsum (map (product_pdf levels members targets) exs) / INR (length exs).

Section Mixture.
  Variables (levels : dict Z) (members : list (list ext)) (ts : list Z).
  (** The rows are complete in the targets and have possible values. *)
  Hypothesis Hrows : forall r i q, In r members -> nth_error ts i = Some q -> exists v, nth_error r i = Some v /\ possible levels q v.

  Lemma column_possible ex i q : (forall a, In a ex -> (a < length members)%nat) -> nth_error ts i = Some q ->
    reals (map (fun j => nth i (nth j members []) NaN) ex) = Ok (column members i ex) /\
    Forall (possible levels q) (map Fin (column members i ex)).
  Proof.
    intros Hex Hq. assert (F : forall j, In j ex -> exists r, nth i (nth j members []) NaN = Fin r /\ possible levels q (Fin r)).
    { intros j Hj. destruct (Hrows (nth j members []) i q) as [v [Ev Pv]]; [apply nth_In, Hex, Hj|exact Hq|].
      rewrite (nth_error_nth _ _ NaN Ev). unfold possible in *. destruct (dget q levels) as [k|].
      - destruct Pv as [z [-> Hz]]. exists (IZR z). split; [reflexivity|]. exists z. auto.
      - destruct Pv as [r ->]. eauto. }
    split.
    - unfold reals, column. rewrite map_map. apply seq_each. clear Hex. induction ex as [|j ex IH]; constructor.
      + destruct (F j (or_introl eq_refl)) as [r [-> _]]. reflexivity.
      + apply IH. intros a Ha. apply F. right. exact Ha.
    - unfold column. rewrite map_map. apply Forall_map, Forall_forall. intros j Hj. destruct (F j Hj) as [r [-> Hr]]. exact Hr.
  Qed.

  Lemma joint_pdf ex : ex <> [] -> (forall a, In a ex -> (a < length members)%nat) ->
    exists ms, learn_joint levels members ts ex = Ok ms /\ length ms = length ts /\
    forall targets, dkeys targets = ts -> (forall q v, In (q, v) targets -> possible levels q v) ->
    exists e, joint_logpdf ms (map snd targets) = Ok e /\ weight_of e (product_pdf levels members targets ex).
  Proof.
    intros Hne Hex. unfold learn_joint.
    assert (L : forall i q, nth_error ts i = Some q -> exists m,
      rbind (reals (map (fun j => nth i (nth j members []) NaN) ex)) (fun column => learn levels q column) = Ok m /\
      forall v, possible levels q v -> exists e, local_logpdf m v = Ok e /\ weight_of e (local_pdf levels q (column members i ex) (fin v))).
    { intros i q Hq. destruct (column_possible ex i q Hex Hq) as [-> P]. cbn [rbind]. apply learn_pdf; [|exact P].
      unfold column. destruct ex; [congruence|discriminate]. }
    assert (G : forall l k, (forall i q, nth_error l i = Some q -> nth_error ts (k + i) = Some q) ->
      exists ms, rsequence (map (fun iq => rbind (reals (map (fun j => nth (fst iq) (nth j members []) NaN) ex)) (fun column => learn levels (snd iq) column))
        (combine (seq k (length l)) l)) = Ok ms /\ length ms = length l /\
      forall targets, dkeys targets = l -> (forall q v, In (q, v) targets -> possible levels q v) ->
      exists es, rsequence (map (fun mx => local_logpdf (fst mx) (snd mx)) (combine ms (map snd targets))) = Ok es /\
        Forall2 weight_of es (map (fun iqv => local_pdf levels (fst (snd iqv)) (column members (fst iqv) ex) (fin (snd (snd iqv))))
          (combine (seq k (length targets)) targets))).
    { induction l as [|q l IH]; intros k Hk.
      - exists []. split; [reflexivity|]. split; [reflexivity|]. intros [|a t] Et _; [|discriminate]. exists []. split; [reflexivity|constructor].
      - destruct (IH (S k)) as [ms [E [El H]]]. { intros i q' Hq'. replace (S k + i)%nat with (k + S i)%nat by lia. apply Hk. exact Hq'. }
        assert (Hk0 : nth_error ts k = Some q) by (rewrite <- (Nat.add_0_r k); apply (Hk 0%nat); reflexivity).
        destruct (L k q Hk0) as [m [Em Hm]]. exists (m :: ms).
        split. { cbn [length seq combine map rsequence fst snd]. rewrite Em, E. reflexivity. }
        split; [cbn; lia|]. intros targets Et Pt. destruct targets as [|[q' v] targets]; [discriminate|]. injection Et as -> Et.
        destruct (Hm v (Pt q v (or_introl eq_refl))) as [e [Ee We]].
        destruct (H targets Et) as [es [Es Ws]]. { intros q0 v0 Hin. apply Pt. right. exact Hin. }
        exists (e :: es). split. { cbn [map combine rsequence fst snd]. rewrite Ee, Es. reflexivity. }
        cbn [length seq combine map fst snd]. constructor; assumption. }
    destruct (G ts 0%nat) as [ms [E [El H]]]; [auto|]. exists ms. split; [exact E|]. split; [exact El|].
    intros targets Et Pt. destruct (H targets Et Pt) as [es [Es Ws]]. exists (esum es).
    unfold joint_logpdf. rewrite Es. split; [reflexivity|]. apply esum_weights. exact Ws.
  Qed.
End Mixture.

Lemma rows_possible near choose levels K M members targets constraints exs :
  (forall r, In r members -> length r = (length targets + length constraints)%nat) ->
  neighborhoods near choose levels K M members targets constraints = Ok exs ->
  forall r i q, In r members -> nth_error targets i = Some q -> exists v, nth_error r i = Some v /\ possible levels q v.
Proof.
  intros Hl E r i q Hr Hq. destruct (neighborhoods_points _ _ _ _ _ _ _ _ _ E) as [_ [_ [_ [De [D [x [P _]]]]]]].
  assert (Hi : (i < length targets)%nat) by (apply nth_error_Some; congruence).
  pose proof (pt_all _ _ _ _ _ _ _ P) as F. apply In_nth_error in Hr. destruct Hr as [n Hn].
  pose proof (f2_len _ _ _ F) as Lf. destruct (nth_error D n) as [d|] eqn:Ed.
  2:{ apply nth_error_None in Ed. assert ((n < length members)%nat) by (apply nth_error_Some; congruence). lia. }
  destruct (f2_nth _ _ _ _ _ _ F Hn Ed) as [qc [_ [Eq _]]].
  destruct (nth_error r i) as [v|] eqn:Ev.
  - exists v. split; [reflexivity|]. apply (code_possible levels targets (firstn (length targets) r) qc i q v Eq Hq).
    rewrite <- Ev. clear - Hi. revert i r Hi. induction (length targets) as [|n IH]; intros i r Hi; [lia|].
    destruct r as [|a r]; [destruct i; reflexivity|]. destruct i as [|i]; [reflexivity|]. cbn. apply IH. lia.
  - apply nth_error_None in Ev. apply nth_error_In in Hn. specialize (Hl r Hn). lia.
Qed.

(** The density reported is that of the mixture of the K localities with equal weights;
    in a locality the targets are independent, a nominal one has the share of the value
    among the rows of the locality and a numerical one the normal density with their mean
    and standard deviation, the latter at least 0.01. *)
Theorem C56_mixture : forall near choose levels K M members targets constraints exs,
  near_ok near -> choose_ok choose -> (1 <= K)%nat -> (1 <= M)%nat ->
  (forall r, In r members -> length r = (length targets + length constraints)%nat) ->
  (forall q v, In (q, v) targets -> possible levels q v) ->
  neighborhoods near choose levels K M members (dkeys targets) constraints = Ok exs ->
  length exs = K /\
  exists v, knn_density near choose levels K M members targets constraints = Ok v /\
    weight_of v (mixture_pdf levels members targets exs).
Proof.
  intros near choose levels K M members targets constraints exs Hn Hc HK HM Hl Ht E.
  assert (Lk : length (dkeys targets) = length targets) by apply map_length.
  assert (L : length exs = K) by (destruct (C56_locality_partial _ _ _ _ _ _ _ _ _ Hn Hc HK E) as [? [? [? [_ [L _]]]]]; exact L).
  split; [exact L|]. rewrite <- Lk in Hl. pose proof (rows_possible _ _ _ _ _ _ _ _ _ Hl E) as Hr.
  assert (J : forall ex, In ex exs -> exists ms, learn_joint levels members (dkeys targets) ex = Ok ms /\
    exists e, joint_logpdf ms (map snd targets) = Ok e /\ weight_of e (product_pdf levels members targets ex)).
  { intros ex Hex. destruct (ex_bounds _ _ _ _ _ _ _ _ _ _ Hn Hc HK E Hex) as [Lx Hb].
    destruct (joint_pdf levels members (dkeys targets) Hr ex) as [ms [Em [_ H]]]; [destruct ex; [cbn in Lx; lia|discriminate]|exact Hb|].
    exists ms. split; [exact Em|]. apply (H targets eq_refl Ht). }
  assert (G : exists models es, rsequence (map (learn_joint levels members (dkeys targets)) exs) = Ok models /\ length models = length exs /\
    rsequence (map (fun m => joint_logpdf m (map snd targets)) models) = Ok es /\
    Forall2 weight_of es (map (product_pdf levels members targets) exs)).
  { clear - J. induction exs as [|ex exs IH]; [exists [], []; repeat split; constructor|].
    destruct (J ex (or_introl eq_refl)) as [ms [Em [e [Ee We]]]].
    destruct IH as [models [es [E1 [E2 [E3 E4]]]]]; [intros ex' Hex'; apply J; right; exact Hex'|].
    exists (ms :: models), (e :: es). cbn [map rsequence]. rewrite Em, E1. cbn [rbind map rsequence]. rewrite Ee, E3. cbn [rbind length].
    split; [reflexivity|]. split; [congruence|]. split; [reflexivity|]. constructor; assumption. }
  destruct G as [models [es [E1 [E2 [E3 E4]]]]]. destruct (C14_logsumexp _ _ E4) as [z [Ez Wz]].
  exists (esub z (Fin (ln (INR (length models))))). unfold knn_density, learn_all. rewrite E. cbn [rbind]. rewrite E1. cbn [rbind].
  rewrite E3. cbn [rbind]. rewrite Ez. cbn [rbind]. split; [reflexivity|].
  unfold mixture_pdf, Rdiv, esub. apply weight_add; [exact Wz|]. left. exists (- ln (INR (length models))). split; [reflexivity|].
  rewrite exp_Ropp, exp_ln; [rewrite E2; reflexivity|]. rewrite E2, L. apply lt_0_INR. lia.
Qed.
Print Assumptions C56_mixture.

(* ------------------------------------------------------------------ *)
(** ** Nominal targets: the masses sum to one *)

(** All values of nominal variables with the given numbers of categories. *)
Fixpoint assignments (qs : list (Z * Z)) : list (dict ext) :=
  match qs with
  | [] => [[]]
  | (q, k) :: qs' => concat (map (fun z => map (cons (q, Fin (IZR (Z.of_nat z)))) (assignments qs')) (seq 0 (Z.to_nat k)))
  end.

Lemma Rsum_concat (f : dict ext -> R) ls : Rsum (map f (concat ls)) = Rsum (map (fun l => Rsum (map f l)) ls).
Proof. induction ls as [|l ls IH]; [reflexivity|]. cbn [concat map]. rewrite map_app, Rsum_app, IH. reflexivity. Qed.
Lemma Rsum_swap {A B} (f : A -> B -> R) l m :
  Rsum (map (fun a => Rsum (map (f a) m)) l) = Rsum (map (fun b => Rsum (map (fun a => f a b) l)) m).
Proof.
  induction l as [|a l IH]; cbn [map].
  - symmetry. change (Rsum (map (fun _ : B => 0) m) = 0). rewrite Rsum_map_const. ring.
  - change (Rsum (Rsum (map (f a) m) :: map (fun a0 => Rsum (map (f a0) m)) l)) with
      (Rsum (map (f a) m) + Rsum (map (fun a0 => Rsum (map (f a0) m)) l)). rewrite IH, <- Rsum_map_plus. reflexivity.
Qed.
Lemma assignments_in qs a : In a (assignments qs) ->
  dkeys a = map fst qs /\ forall levels, (forall q k, In (q, k) qs -> dget q levels = Some k) ->
    forall q v, In (q, v) a -> possible levels q v.
Proof.
  revert a. induction qs as [|[q k] qs IH]; intros a Ha.
  - destruct Ha as [<-|[]]. split; [reflexivity|]. intros levels _ q v [].
  - cbn [assignments] in Ha. apply in_concat in Ha. destruct Ha as [l [Hl Ha]]. apply in_map_iff in Hl. destruct Hl as [z [<- Hz]].
    apply in_map_iff in Ha. destruct Ha as [a' [<- Ha']]. destruct (IH a' Ha') as [K1 K2]. split; [cbn; f_equal; exact K1|].
    intros levels Hl q' v [E|Hin].
    + injection E as <- <-. unfold possible. rewrite (Hl q k (or_introl eq_refl)). exists (Z.of_nat z). split; [reflexivity|].
      apply in_seq in Hz. lia.
    + apply (K2 levels); [|exact Hin]. intros q0 k0 H0. apply Hl. right. exact H0.
Qed.
Lemma share_total k l : l <> [] -> (forall x, In x l -> exists z, x = IZR z /\ (0 <= z < k)%Z) ->
  Rsum (map (fun z => share (IZR (Z.of_nat z)) l) (seq 0 (Z.to_nat k))) = 1.
Proof.
  intros Hl Hi. assert (E : map (fun z => share (IZR (Z.of_nat z)) l) (seq 0 (Z.to_nat k)) =
    map (fun c => c * / INR (length l)) (map IZR (map (fun c => Z.of_nat (length (filter (fun y => (trunc y =? Z.of_nat c)%Z) l))) (seq 0 (Z.to_nat k))))).
  { rewrite !map_map. apply map_ext. intros z. unfold share. rewrite INR_IZR_INZ. unfold Rdiv. do 4 f_equal.
    apply filter_ext_in. intros y Hy. destruct (Hi y Hy) as [z' [-> _]]. rewrite trunc_IZR.
    destruct (Z.eqb_spec z' (Z.of_nat z)) as [->|N]; [apply Reqb_true; reflexivity|].
    apply Reqb_false. intros F. apply eq_IZR in F. contradiction. }
  rewrite E. rewrite (map_ext _ (fun c => / INR (length l) * c)) by (intros; ring). rewrite Rsum_map_scal, map_id.
  assert (Z0 : forall ns, Rsum (map IZR ns) = IZR (zsum ns)).
  { induction ns as [|n ns IH]; [reflexivity|].
    change (IZR n + Rsum (map IZR ns) = IZR (n + zsum ns)). rewrite plus_IZR, IH. reflexivity. }
  rewrite Z0, zsum_counts.
  - rewrite INR_IZR_INZ. field. apply not_0_IZR. destruct l; [congruence|cbn; lia].
  - intros x Hx. destruct (Hi x Hx) as [z [-> Hz]]. rewrite trunc_IZR. lia.
Qed.

Theorem C56_normalised : forall near choose levels K M members qs constraints exs,
  near_ok near -> choose_ok choose -> (1 <= K)%nat -> (1 <= M)%nat ->
  (forall r, In r members -> length r = (length qs + length constraints)%nat) ->
  (forall q k, In (q, k) qs -> dget q levels = Some k) ->
  neighborhoods near choose levels K M members (map fst qs) constraints = Ok exs ->
  exists ws, Forall2 (fun a w => exists v, knn_density near choose levels K M members a constraints = Ok v /\ weight_of v w)
    (assignments qs) ws /\ Rsum ws = 1.
Proof.
  intros near choose levels K M members qs constraints exs Hn Hc HK HM Hl Hq E.
  exists (map (fun a => mixture_pdf levels members a exs) (assignments qs)). split.
  - assert (G : forall l, incl l (assignments qs) -> Forall2 (fun a w => exists v, knn_density near choose levels K M members a constraints = Ok v /\ weight_of v w)
      l (map (fun a => mixture_pdf levels members a exs) l)).
    { induction l as [|a l IH]; intros Hi; cbn [map]; constructor; [|apply IH; intros b Hb; apply Hi; right; exact Hb].
      destruct (assignments_in qs a (Hi a (or_introl eq_refl))) as [K1 K2].
      apply (C56_mixture near choose levels K M members a constraints exs Hn Hc HK HM).
      - assert (L : length a = length qs) by (rewrite <- (map_length fst a); unfold dkeys in K1; rewrite K1, map_length; reflexivity).
        rewrite L. exact Hl.
      - apply K2. exact Hq.
      - rewrite K1. exact E. }
    apply G, incl_refl.
  - assert (L : length exs = K) by (destruct (C56_locality_partial _ _ _ _ _ _ _ _ _ Hn Hc HK E) as [? [? [? [_ [L _]]]]]; exact L).
    rewrite <- (map_length fst qs) in Hl. pose proof (rows_possible _ _ _ _ _ _ _ _ _ Hl E) as Hr.
    unfold mixture_pdf. rewrite (Rsum_map_div (fun a => Rsum (map (product_pdf levels members a) exs))).
    rewrite (Rsum_swap (fun a ex => product_pdf levels members a ex)).
    assert (P : forall ex, In ex exs -> Rsum (map (fun a => product_pdf levels members a ex) (assignments qs)) = 1).
    { intros ex Hex. destruct (ex_bounds _ _ _ _ _ _ _ _ _ _ Hn Hc HK E Hex) as [Lx Hb].
      assert (Hne : ex <> []) by (destruct ex; [cbn in Lx; lia|discriminate]).
      assert (C : forall i q k, nth_error (map fst qs) i = Some q -> dget q levels = Some k ->
        Rsum (map (fun z => local_pdf levels q (column members i ex) (IZR (Z.of_nat z))) (seq 0 (Z.to_nat k))) = 1).
      { intros i q k Hi Hk. unfold local_pdf. rewrite Hk. apply share_total.
        - unfold column. destruct ex; [congruence|discriminate].
        - intros x Hx. destruct (column_possible levels members (map fst qs) Hr ex i q Hb Hi) as [_ F]. rewrite Forall_forall in F.
          specialize (F (Fin x) (in_map Fin _ _ Hx)). unfold possible in F. rewrite Hk in F. destruct F as [z [Ez Hz]].
          injection Ez as ->. eauto. }
      unfold product_pdf.
      assert (G : forall l j, (forall i q, nth_error (map fst l) i = Some q -> nth_error (map fst qs) (j + i) = Some q) ->
        (forall q k, In (q, k) l -> dget q levels = Some k) ->
        Rsum (map (fun a => prod (map (fun iqv => local_pdf levels (fst (snd iqv)) (column members (fst iqv) ex) (fin (snd (snd iqv))))
          (combine (seq j (length a)) a))) (assignments l)) = 1).
      { induction l as [|[q k] l IH]; intros j Hj Hk; [cbn; lra|]. cbn [assignments]. rewrite Rsum_concat, map_map.
        rewrite <- (C j q k); [|rewrite <- (Nat.add_0_r j); apply (Hj 0%nat); reflexivity|apply Hk; left; reflexivity].
        f_equal. apply map_ext. intros z. rewrite map_map. cbn [length seq combine map fst snd fin].
        rewrite (map_ext _ (fun a => local_pdf levels q (column members j ex) (IZR (Z.of_nat z)) *
          prod (map (fun iqv => local_pdf levels (fst (snd iqv)) (column members (fst iqv) ex) (fin (snd (snd iqv)))) (combine (seq (S j) (length a)) a))))
          by reflexivity.
        rewrite Rsum_map_scal. rewrite (IH (S j)); [ring| |intros q0 k0 H0; apply Hk; right; exact H0].
        intros i q0 H0. replace (S j + i)%nat with (j + S i)%nat by lia. apply Hj. exact H0. }
      apply (G qs 0%nat); [auto|exact Hq]. }
    rewrite (map_ext_in _ (fun _ => 1)) by (intros ex Hex; apply P; exact Hex). rewrite Rsum_map_const. field.
    apply not_0_INR. lia.
Qed.
Print Assumptions C56_normalised.

(* ------------------------------------------------------------------ *)
(** ** Which searches succeed *)

Lemma code_ok levels vars row : length row = length vars ->
  (exists c, knn_code levels vars row = Ok c) <->
  (forall i q v, nth_error vars i = Some q -> nth_error row i = Some v -> possible levels q v).
Proof.
  intros L. split.
  - intros [c E] i q v. exact (code_possible levels vars row c i q v E).
  - intros H. unfold knn_code.
    assert (Cd : codable (levels_at levels vars) row).
    { intros i v k Ev Ek. rewrite levels_at_get in Ek. destruct (nth_error vars i) as [q|] eqn:Eq; [|discriminate].
      specialize (H i q v Eq Ev). unfold possible in H. rewrite Ek in H. exact H. }
    apply C47_accepts in Cd. destruct Cd as [c Ec]. rewrite Ec. cbn [rbind].
    destruct (C47_blocks _ _ _ Ec) as [bs [-> [Lb B]]].
    assert (F : forall e, In e (concat bs) -> exists r, e = Fin r).
    { intros e He. apply in_concat in He. destruct He as [b [Hb He]]. apply In_nth_error in Hb. destruct Hb as [i Hi].
      destruct (B i b Hi) as [v [Ev M]]. rewrite levels_at_get in M.
      destruct (nth_error vars i) as [q|] eqn:Eq.
      2:{ apply nth_error_None in Eq. assert ((i < length row)%nat) by (apply nth_error_Some; congruence). lia. }
      specialize (H i q v Eq Ev). unfold possible in H. destruct (dget q levels) as [k|].
      - destruct M as [z [_ ->]]. unfold one_hot in He. apply in_map_iff in He. destruct He as [j [<- _]].
        destruct (Z.of_nat j =? z)%Z; eauto.
      - subst b. destruct He as [<-|[]]. exact H. }
    unfold reals. destruct (rsequence (map (fun e => match e with Fin r => Ok r | _ => Err ValueError end) (concat bs))) as [o|] eqn:Eo; [eauto|].
    exfalso. assert (G : exists o, rsequence (map (fun e => match e with Fin r => Ok r | _ => Err ValueError end) (concat bs)) = Ok o).
    { clear - F. induction (concat bs) as [|e l IH]; [exists []; reflexivity|]. destruct (F e (or_introl eq_refl)) as [r ->].
      destruct IH as [o Ho]; [intros e' He'; apply F; right; exact He'|]. exists (r :: o). cbn. rewrite Ho. reflexivity. }
    destruct G as [o Ho]. congruence.
Qed.
(** A row as a point: a nominal value with k categories as k - 1 indicators, a number as it is. *)
Inductive represents (levels : dict Z) : list Z -> list ext -> list R -> Prop :=
| rep_nil : represents levels [] [] []
| rep_number q vs r row c : dget q levels = None -> represents levels vs row c ->
    represents levels (q :: vs) (Fin r :: row) (r :: c)
| rep_category q vs k z row b c : dget q levels = Some k -> (0 <= z < k)%Z -> length b = Z.to_nat (k - 1) ->
    (forall j, (j < Z.to_nat (k - 1))%nat -> nth j b 0 = if (Z.of_nat j =? z)%Z then 1 else 0) ->
    represents levels vs row c -> represents levels (q :: vs) (Fin (IZR z) :: row) (b ++ c).

Lemma represents_unique levels vs row c c' : represents levels vs row c -> represents levels vs row c' -> c = c'.
Proof.
  intros H. revert c'. induction H as [|q vs r row c Hq _ IH|q vs k z row b c Hq Hz Lb Hb _ IH]; intros c' H'.
  - inversion H'. reflexivity.
  - inversion H' as [|q1 vs1 r1 row1 c1 Hq1 H1|q1 vs1 k1 z1 row1 b1 c1 Hq1 Hz1 Lb1 Hb1 H1]; subst; [f_equal; auto|congruence].
  - inversion H' as [|q1 vs1 r1 row1 c1 Hq1 H1|q1 vs1 k1 z1 row1 b1 c1 Hq1 Hz1 Lb1 Hb1 H1 E1 E2 E3]; subst; [congruence|].
    rewrite Hq in Hq1. injection Hq1 as <-. apply eq_IZR in E2. subst z1. f_equal; [|auto].
    apply (nth_ext _ _ 0 0); [congruence|]. intros j Hj. rewrite Lb in Hj. rewrite (Hb j Hj), (Hb1 j Hj). reflexivity.
Qed.

(** The points of rows and constraints that the tree is asked about. *)
Theorem C56_point : forall levels vars row c, length row = length vars ->
  knn_code levels vars row = Ok c <-> represents levels vars row c.
Proof.
  assert (F : forall levels vars row c, length row = length vars -> knn_code levels vars row = Ok c -> represents levels vars row c).
  { intros levels vars row c L E. pose proof E as E0. assert (P := code_possible levels vars row c). unfold knn_code in E.
    destruct (dummy_code row (levels_at levels vars)) as [c'|] eqn:Ec; [|discriminate]. cbn [rbind] in E.
    destruct (C47_blocks _ _ _ Ec) as [bs [-> [Lb B]]].
    assert (B' : forall i b q v, nth_error bs i = Some b -> nth_error vars i = Some q -> nth_error row i = Some v ->
      possible levels q v /\ match dget q levels with Some k => exists z, v = Fin (IZR z) /\ b = one_hot k z | None => b = [v] end).
    { intros i b q v Eb Eq Ev. split; [apply (P i q v E0 Eq Ev)|]. destruct (B i b Eb) as [v' [Ev' M]].
      rewrite Ev in Ev'. injection Ev' as <-. rewrite levels_at_get, Eq in M. exact M. }
    clear B P E0 Ec. revert row bs c L Lb B' E. induction vars as [|q vars IH]; intros row bs c L Lb B E.
    - destruct row; [|discriminate]. destruct bs; [|discriminate]. injection E as <-. constructor.
    - destruct row as [|v row]; [discriminate|]. destruct bs as [|b bs]; [discriminate|].
      destruct (B 0%nat b q v eq_refl eq_refl eq_refl) as [Pv Mv].
      assert (IH' := fun c => IH row bs c ltac:(cbn in L; lia) ltac:(cbn in Lb; lia) (fun i => B (S i))).
      unfold reals in *. cbn [concat] in E. rewrite map_app in E. apply rsequence_ok in E.
      unfold possible in Pv. destruct (dget q levels) as [k|] eqn:Ek.
      + destruct Mv as [z [-> ->]]. destruct Pv as [z' [Ez Hz]]. injection Ez as Ez. apply eq_IZR in Ez. subst z'.
        assert (Lh : length (one_hot k z) = Z.to_nat (k - 1)) by (unfold one_hot; rewrite map_length, seq_length; reflexivity).
        set (h := map (fun j => if (Z.of_nat j =? z)%Z then 1 else 0) (seq 0 (Z.to_nat (k - 1)))).
        assert (Eh : map (fun e => match e with Fin r => Ok r | _ => Err ValueError end) (one_hot k z) = map Ok h).
        { unfold one_hot, h. rewrite !map_map. apply map_ext. intros j. destruct (Z.of_nat j =? z)%Z; reflexivity. }
        rewrite Eh in E. assert (Sp : c = h ++ skipn (length h) c).
        { clear - E. revert c E. induction h as [|a h IH]; intros c E; [reflexivity|]. destruct c as [|a' c]; [discriminate|].
          injection E as E1 E2. cbn. f_equal; [congruence|]. apply IH. exact E2. }
        rewrite Sp in E. rewrite map_app in E. apply app_inv_head in E. rewrite Sp.
        apply (rep_category _ q vars k z row h); [exact Ek|exact Hz|unfold h; rewrite map_length, seq_length; reflexivity| |].
        * intros j Hj. unfold h. apply nth_error_nth. rewrite nth_error_map, nth_error_seq0 by exact Hj. reflexivity.
        * apply IH'. apply rsequence_ok. exact E.
      + subst b. destruct Pv as [r ->]. cbn [map app] in E. destruct c as [|a c]; [discriminate|]. injection E as Ea E. subst a.
        apply rep_number; [exact Ek|]. apply IH'. apply rsequence_ok. exact E. }
  intros levels vars row c L. split; [apply F; exact L|]. intros H.
  assert (G : exists c', knn_code levels vars row = Ok c').
  { apply (code_ok levels vars row L). clear - H. induction H as [|q vs r row c Hq _ IH|q vs k z row b c Hq Hz Lb Hb _ IH]; intros i q0 v0 E1 E2.
    - destruct i; discriminate.
    - destruct i as [|i]; [|apply (IH i q0 v0 E1 E2)]. injection E1 as <-. injection E2 as <-. unfold possible. rewrite Hq. eauto.
    - destruct i as [|i]; [|apply (IH i q0 v0 E1 E2)]. injection E1 as <-. injection E2 as <-. unfold possible. rewrite Hq. exists z. auto. }
  destruct G as [c' Ec']. rewrite Ec'. f_equal. apply (represents_unique levels vars row); [apply F; assumption|exact H].
Qed.
Print Assumptions C56_point.

Lemma all_codes {A} (f : A -> res (list R)) l : (exists o, rsequence (map f l) = Ok o) <-> forall a, In a l -> exists c, f a = Ok c.
Proof.
  split.
  - intros [o E] a Ha. apply seq_each in E. induction E as [|x y l o E _ IH]; [destruct Ha|]. destruct Ha as [<-|Ha]; eauto.
  - induction l as [|a l IH]; intros H; [exists []; reflexivity|]. destruct (H a (or_introl eq_refl)) as [c Ec].
    destruct IH as [o Eo]; [intros b Hb; apply H; right; exact Hb|]. exists (c :: o). cbn. rewrite Ec, Eo. reflexivity.
Qed.

(** The search succeeds exactly if there are constraints, none of them NaN, at least K
    complete rows, and possible values in rows and constraints. *)
Theorem C56_succeeds : forall near choose levels K M members targets constraints,
  (forall r, In r members -> length r = (length targets + length constraints)%nat) ->
  (exists exs, neighborhoods near choose levels K M members targets constraints = Ok exs) <->
  (constraints <> [] /\ (K <= length members)%nat /\
   (forall q v, In (q, v) constraints -> possible levels q v) /\
   forall r i q v, In r members -> nth_error (targets ++ dkeys constraints) i = Some q -> nth_error r i = Some v -> possible levels q v).
Proof.
  intros near choose levels K M members targets constraints Hl.
  assert (Lc : length (map snd constraints) = length (dkeys constraints)) by (unfold dkeys; rewrite !map_length; reflexivity).
  assert (Ld : length (dkeys constraints) = length constraints) by (unfold dkeys; rewrite !map_length; reflexivity).
  assert (F1 : forall r, In r members -> length (firstn (length targets) r) = length targets)
    by (intros r Hr; rewrite firstn_length, (Hl r Hr); lia).
  assert (F2 : forall r, In r members -> length (skipn (length targets) r) = length (dkeys constraints))
    by (intros r Hr; rewrite skipn_length, (Hl r Hr); lia).
  assert (Rows : forall r, In r members ->
    ((exists c, knn_code levels targets (firstn (length targets) r) = Ok c) /\
     (exists c, knn_code levels (dkeys constraints) (skipn (length targets) r) = Ok c)) <->
    (forall i q v, nth_error (targets ++ dkeys constraints) i = Some q -> nth_error r i = Some v -> possible levels q v)).
  { intros r Hr. rewrite (code_ok levels targets _ (F1 r Hr)), (code_ok levels (dkeys constraints) _ (F2 r Hr)).
    assert (N1 : forall i, (i < length targets)%nat -> nth_error (firstn (length targets) r) i = nth_error r i).
    { clear. generalize (length targets). intros n. revert r. induction n as [|n IH]; intros r i Hi; [lia|].
      destruct r as [|a r]; [destruct i; reflexivity|]. destruct i; [reflexivity|]. cbn. apply IH. lia. }
    assert (N2 : forall i, nth_error (skipn (length targets) r) i = nth_error r (length targets + i)).
    { clear. generalize (length targets). intros n. revert r. induction n as [|n IH]; intros r i; [reflexivity|].
      destruct r as [|a r]; [destruct i; reflexivity|]. cbn. apply IH. }
    split.
    - intros [H1 H2] i q v Hq Hv. destruct (Nat.lt_ge_cases i (length targets)) as [Hi|Hi].
      + rewrite nth_error_app1 in Hq by exact Hi. apply (H1 i q v Hq). rewrite N1 by exact Hi. exact Hv.
      + rewrite nth_error_app2 in Hq by exact Hi. apply (H2 _ q v Hq). rewrite N2. replace (length targets + (i - length targets))%nat with i by lia. exact Hv.
    - intros H. split; intros i q v Hq Hv.
      + assert (Hi : (i < length targets)%nat) by (apply nth_error_Some; congruence). rewrite N1 in Hv by exact Hi.
        apply (H i q v); [rewrite nth_error_app1 by exact Hi; exact Hq|exact Hv].
      + rewrite N2 in Hv. apply (H (length targets + i)%nat q v); [|exact Hv].
        rewrite nth_error_app2 by lia. replace (length targets + i - length targets)%nat with i by lia. exact Hq. }
  assert (Cs : (exists c, knn_code levels (dkeys constraints) (map snd constraints) = Ok c) <->
    (forall q v, In (q, v) constraints -> possible levels q v)).
  { rewrite (code_ok levels (dkeys constraints) _ Lc). split.
    - intros H q v Hin. apply In_nth_error in Hin. destruct Hin as [i Hi]. apply (H i).
      + unfold dkeys. rewrite nth_error_map, Hi. reflexivity.
      + rewrite nth_error_map, Hi. reflexivity.
    - intros H i q v Hq Hv. unfold dkeys in Hq. rewrite nth_error_map in Hq, Hv.
      destruct (nth_error constraints i) as [[q' v']|] eqn:Ei; [|discriminate]. injection Hq as <-. injection Hv as <-.
      apply H. apply nth_error_In in Ei. exact Ei. }
  split.
  - intros [exs E]. destruct (neighborhoods_points _ _ _ _ _ _ _ _ _ E) as [H1 [H2 [_ [De [D [x [P _]]]]]]].
    split; [exact H2|]. split; [exact H1|]. split; [apply Cs; exists x; apply (pt_x _ _ _ _ _ _ _ P)|].
    intros r i q v Hr. apply (proj1 (Rows r Hr)). pose proof (pt_all _ _ _ _ _ _ _ P) as F. clear - F Hr.
    induction F as [|r' d members D [qc [ec [E1 [E2 _]]]] _ IH]; [destruct Hr|]. destruct Hr as [<-|Hr]; eauto.
  - intros [H1 [H2 [H3 H4]]]. unfold neighborhoods. destruct constraints as [|c0 cs]; [congruence|]. set (constraints := c0 :: cs) in *.
    assert (En : existsb eisnan (map snd constraints) = false).
    { apply not_true_iff_false. intros F. apply existsb_exists in F. destruct F as [v [Hv Ev]]. apply in_map_iff in Hv.
      destruct Hv as [[q v'] [<- Hin]]. specialize (H3 q v' Hin). cbn in Ev. unfold possible in H3. destruct (dget q levels).
      - destruct H3 as [zz [-> _]]. discriminate.
      - destruct H3 as [r0 ->]. discriminate. }
    rewrite En. destruct (Nat.ltb_spec (length members) K); [lia|].
    assert (Q : forall r, In r members -> (exists c, knn_code levels targets (firstn (length targets) r) = Ok c) /\
      (exists c, knn_code levels (dkeys constraints) (skipn (length targets) r) = Ok c)).
    { intros r Hr. apply (Rows r Hr). intros i q v. apply H4. exact Hr. }
    destruct (proj2 (all_codes (fun r => knn_code levels targets (firstn (length targets) r)) members)) as [Dq Eq]; [intros r Hr; apply (Q r Hr)|].
    destruct (proj2 (all_codes (fun r => knn_code levels (dkeys constraints) (skipn (length targets) r)) members)) as [De Ee]; [intros r Hr; apply (Q r Hr)|].
    rewrite Eq. cbn [rbind]. rewrite Ee. cbn [rbind]. destruct (proj2 Cs H3) as [x Ex]. rewrite Ex. cbn [rbind]. eauto.
Qed.
Print Assumptions C56_succeeds.

(* ------------------------------------------------------------------ *)
(** ** The query of a component *)

Lemma dataset_rows g s qs members r : dataset g s qs = Ok members -> In r members -> length r = length qs.
Proof.
  unfold dataset. destruct (rsequence (map (fun q => index_of q (t_obs g)) qs)) as [idx|] eqn:Ei; [|discriminate].
  cbn [rbind]. intros E. injection E as <-. intros Hr. apply filter_In in Hr. destruct Hr as [Hr _]. apply in_map_iff in Hr.
  destruct Hr as [row [<- _]]. rewrite map_length. apply seq_each in Ei. symmetry. exact (f2_len _ _ _ Ei).
Qed.

(** The density of a component, after any history of rows, of an accepted query about a new
    row, with possible values. *)
Theorem C56_density : forall near choose levels g K M cs r targets constraints members exs,
  near_ok near -> choose_ok choose -> (1 <= K)%nat -> (1 <= M)%nat -> NoDup (t_out g) ->
  ~ In r (map fst (ledger (table_accepts g) cs)) ->
  knn_fine g (Z.of_nat K) (table_run g cs) (dkeys targets) (map snd targets) constraints None ->
  dataset g (table_run g cs) (dkeys targets ++ dkeys constraints) = Ok members ->
  (forall q v, In (q, v) targets -> possible levels q v) ->
  neighborhoods near choose levels K M members (dkeys targets) constraints = Ok exs ->
  exists v, knn_logpdf g (Z.of_nat K) (knn_density near choose levels K M) (table_run g cs) r targets constraints [] = Ok v /\
    weight_of v (mixture_pdf levels members targets exs).
Proof.
  intros near choose levels g K M cs r targets constraints members exs Hn Hc HK HM Hg Hr Hf Hd Ht E.
  destruct (C50_knn_density g (Z.of_nat K) (knn_density near choose levels K M) cs r targets constraints [] Hg Hr) as [_ H].
  rewrite (H eq_refl) with (members := members); [|destruct (neighborhoods_points _ _ _ _ _ _ _ _ _ E) as [_ [Hc' _]]; exact Hc'|exact Hf|exact Hd].
  apply (C56_mixture near choose levels K M members targets constraints exs Hn Hc HK HM); [|exact Ht|exact E].
  intros row Hrow. rewrite (dataset_rows _ _ _ _ _ Hd Hrow), app_length. unfold dkeys. rewrite !map_length. reflexivity.
Qed.
Print Assumptions C56_density.

(* ------------------------------------------------------------------ *)
(** ** A neighbour lies in its own locality *)

Lemma squares_refl p : squares p p = 0.
Proof. induction p as [|a p IH]; [reflexivity|]. cbn [squares]. rewrite IH. ring. Qed.

(** Unless another complete row is the same point. *)
Theorem C56_self : forall near choose levels K M members targets constraints exs,
  near_ok near -> choose_ok choose -> (1 <= K)%nat -> (1 <= M)%nat ->
  neighborhoods near choose levels K M members targets constraints = Ok exs ->
  exists De D x, points levels members targets constraints De D x /\
  forall i ex j, nth_error exs i = Some ex -> nth_error (nearest near choose K De x) i = Some j ->
    (forall b, (b < length members)%nat -> b <> j -> 0 < far D (nth j D []) b) -> In j ex.
Proof.
  intros near choose levels K M members targets constraints exs Hn Hc HK HM E.
  pose proof (neighborhoods_points _ _ _ _ _ _ _ _ _ E) as [HK' [_ [_ [De0 [D0 [x0 [P0 [L1 _]]]]]]]].
  destruct (C56_locality_partial _ _ _ _ _ _ _ _ _ Hn Hc HK E) as [De [D [x [P [_ H]]]]]. exists De, D, x. split; [exact P|].
  intros i ex j Hi Hj Far. destruct (H i ex Hi) as [j' [Hj' [Lx [_ [Hb Ho]]]]]. rewrite Hj in Hj'. injection Hj' as <-.
  destruct (in_dec Nat.eq_dec j ex) as [Hin|Hin]; [exact Hin|exfalso].
  destruct ex as [|a ex]; [cbn in Lx; lia|].
  assert (Lj : (j < length members)%nat).
  { apply nth_error_In in Hj. pose proof (f2_len _ _ _ (pt_given _ _ _ _ _ _ _ P)) as Lg.
    destruct (C56_nearest_partial near choose K De x Hn Hc ltac:(lia)) as [_ [_ B]]. destruct (B j Hj) as [B1 _]. lia. }
  assert (Na : a <> j) by (intros ->; apply Hin; left; reflexivity).
  pose proof (Ho a j (or_introl eq_refl) Lj Hin) as Hle. pose proof (Far a (Hb a (or_introl eq_refl)) Na) as Hlt.
  unfold far in Hle at 2. rewrite squares_refl, sqrt_0 in Hle. lra.
Qed.
Print Assumptions C56_self.

(* ------------------------------------------------------------------ *)
(** ** Samples *)

(** What rng.choice returns: for the local models, and for the categories. *)
Definition which_ok (which : nat -> nat -> list nat) : Prop := forall k n, (0 < k)%nat ->
  length (which k n) = n /\ forall j, In j (which k n) -> (j < k)%nat.
Definition pick_ok (pick : nat -> Z -> list R -> nat) : Prop := forall i q p, (exists w, In w p /\ 0 < w) ->
  exists w, nth_error p (pick i q p) = Some w /\ 0 < w.

Section Sample.
  Variables (gauss : nat -> Z -> R -> R -> R) (pick : nat -> Z -> list R -> nat).
  Hypothesis Hpick : pick_ok pick.

  Lemma learn_sample levels q l m i : l <> [] -> Forall (possible levels q) (map Fin l) -> learn levels q l = Ok m ->
    possible levels q (local_sample gauss pick i q m) /\ 0 < local_pdf levels q l (fin (local_sample gauss pick i q m)).
  Proof.
    intros Hl H Em. destruct (learn_pdf levels q l Hl H) as [m' [Em' Hm]]. rewrite Em in Em'. injection Em' as <-.
    assert (P : possible levels q (local_sample gauss pick i q m) /\
      forall e, local_logpdf m (local_sample gauss pick i q m) = Ok e -> exists r, e = Fin r).
    { unfold learn in Em. unfold possible in *. destruct (dget q levels) as [k|] eqn:Eq.
      - destruct (forallb (fun l => Rleb 0 l && Rltb l (IZR k)) l); [|discriminate]. injection Em as Em.
        assert (Lp : match m with Lcat p => length p = Z.to_nat k | Lnum _ _ => False end) by (rewrite <- Em; rewrite !map_length, seq_length; reflexivity).
        assert (Ep : match m with Lcat p => exists w, In w p /\ 0 < w | Lnum _ _ => False end).
        { destruct m as [|p]; [exact Lp|]. destruct l as [|x l]; [congruence|].
          assert (Hx : category k (Fin x)) by (inversion H; assumption). destruct (Hm (Fin x) Hx) as [e [Ee We]].
          assert (Wp : 0 < share x (x :: l)).
          { unfold share. cbn [filter]. rewrite (proj2 (Reqb_true x x) eq_refl). apply Rmult_lt_0_compat; [apply lt_0_INR; cbn; lia|].
            apply Rinv_0_lt_compat, lt_0_INR. cbn. lia. }
          unfold local_pdf in We. rewrite Eq in We.
          - cbn [fin] in We. cbn [local_logpdf] in Ee. unfold np_index in Ee. destruct (is_intb x); [|discriminate].
            set (jj := if (trunc x <? 0)%Z then _ else _) in Ee. destruct (0 <=? jj)%Z; [|discriminate].
            destruct (nth_error p (Z.to_nat jj)) as [w|] eqn:Ew; [|discriminate]. cbn [rbind] in Ee. injection Ee as <-.
            exists w. split; [apply nth_error_In in Ew; exact Ew|]. destruct (Rltb 0 w) eqn:E0; [apply Rltb_true; exact E0|].
            destruct We as [[a [Ea _]]|[_ We]]; [discriminate|lra]. }
        destruct m as [|p]; [destruct Lp|]. destruct (Hpick i q p Ep) as [w [Ew Hw]].
        assert (Hi : (pick i q p < length p)%nat) by (apply nth_error_Some; congruence). cbn [local_sample local_logpdf].
        split.
        + exists (Z.of_nat (pick i q p)). rewrite INR_IZR_INZ. split; [reflexivity|]. lia.
        + intros e. unfold np_index. rewrite INR_IZR_INZ, (proj2 (is_intb_true _)) by eauto. rewrite trunc_IZR.
          destruct (Z.ltb_spec (Z.of_nat (pick i q p)) 0); [lia|]. destruct (Z.leb_spec 0 (Z.of_nat (pick i q p))); [|lia].
          rewrite Nat2Z.id, Ew. cbn [rbind]. rewrite (proj2 (Rltb_true 0 w) Hw). intros Ee. injection Ee as <-. eauto.
      - injection Em as <-. cbn [local_sample local_logpdf]. split; [eauto|]. intros e Ee. injection Ee as <-. eauto. }
    destruct P as [P1 P2]. split; [exact P1|]. destruct (Hm _ P1) as [e [Ee We]]. destruct (P2 e Ee) as [r ->].
    destruct We as [[a [_ ->]]|[F _]]; [apply exp_pos|discriminate].
  Qed.

  Lemma joint_sample levels members ts i ex ms :
    (forall r i q, In r members -> nth_error ts i = Some q -> exists v, nth_error r i = Some v /\ possible levels q v) ->
    ex <> [] -> (forall a, In a ex -> (a < length members)%nat) -> learn_joint levels members ts ex = Ok ms ->
    let row := map (fun qm => (fst qm, local_sample gauss pick i (fst qm) (snd qm))) (combine ts ms) in
    dkeys row = ts /\ (forall q v, In (q, v) row -> possible levels q v) /\ 0 < product_pdf levels members row ex.
  Proof.
    intros Hrows Hne Hex. unfold learn_joint, product_pdf.
    assert (G : forall l k ms, (forall i q, nth_error l i = Some q -> nth_error ts (k + i) = Some q) ->
      rsequence (map (fun iq => rbind (reals (map (fun j => nth (fst iq) (nth j members []) NaN) ex)) (fun column => learn levels (snd iq) column))
        (combine (seq k (length l)) l)) = Ok ms ->
      let row := map (fun qm => (fst qm, local_sample gauss pick i (fst qm) (snd qm))) (combine l ms) in
      dkeys row = l /\ (forall q v, In (q, v) row -> possible levels q v) /\
      0 < prod (map (fun iqv => local_pdf levels (fst (snd iqv)) (column members (fst iqv) ex) (fin (snd (snd iqv))))
          (combine (seq k (length row)) row))).
    { clear ms. induction l as [|q l IH]; intros k ms Hk E.
      - split; [reflexivity|]. split; [intros q v []|cbn; lra].
      - cbn [length seq combine map rsequence fst snd] in E.
        assert (Hk0 : nth_error ts k = Some q) by (rewrite <- (Nat.add_0_r k); apply (Hk 0%nat); reflexivity).
        destruct (column_possible levels members ts Hrows ex k q Hex Hk0) as [Ec P]. rewrite Ec in E. cbn [rbind] in E.
        destruct (learn levels q (column members k ex)) as [m|] eqn:Em; [|discriminate].
        destruct (rsequence (map (fun iq => rbind (reals (map (fun j => nth (fst iq) (nth j members []) NaN) ex)) (fun column => learn levels (snd iq) column))
          (combine (seq (S k) (length l)) l))) as [ms'|] eqn:Es; [|discriminate]. cbn [rbind] in E. injection E as <-.
        destruct (IH (S k) ms') as [I1 [I2 I3]]; [|exact Es|].
        { intros i' q' Hq'. replace (S k + i')%nat with (k + S i')%nat by lia. apply Hk. exact Hq'. }
        destruct (learn_sample levels q (column members k ex) m i) as [S1 S2]; [unfold column; destruct ex; [congruence|discriminate]|exact P|exact Em|].
        cbn [combine map fst snd]. split; [cbn; f_equal; exact I1|]. split.
        + intros q0 v0 [E0|H0]; [injection E0 as <- <-; exact S1|apply I2; exact H0].
        + cbn [length seq combine map fst snd prod fold_right]. apply Rmult_lt_0_compat; [exact S2|exact I3]. }
    intros E. apply (G ts 0%nat ms); [auto|exact E].
  Qed.
End Sample.

(** Every sample assigns all targets, with values that its locality makes possible: a nominal
    value occurs in it. *)
Theorem C56_samples : forall near choose levels K M which gauss pick members targets constraints exs n,
  near_ok near -> choose_ok choose -> which_ok which -> pick_ok pick -> (1 <= K)%nat -> (1 <= M)%nat ->
  (forall r, In r members -> length r = (length targets + length constraints)%nat) ->
  neighborhoods near choose levels K M members targets constraints = Ok exs ->
  exists rows, knn_sample near choose levels K M which gauss pick members targets constraints n = Ok rows /\
    length rows = Z.to_nat n /\
    forall row, In row rows -> dkeys row = targets /\ (forall q v, In (q, v) row -> possible levels q v) /\
      exists ex, In ex exs /\ 0 < product_pdf levels members row ex /\
        forall i q k v, nth_error row i = Some (q, v) -> dget q levels = Some k -> In (fin v) (column members i ex).
Proof.
  intros near choose levels K M which gauss pick members targets constraints exs n Hn Hc Hw Hp HK HM Hl E.
  assert (L : length exs = K) by (destruct (C56_locality_partial _ _ _ _ _ _ _ _ _ Hn Hc HK E) as [? [? [? [_ [L _]]]]]; exact L).
  pose proof (rows_possible _ _ _ _ _ _ _ _ _ Hl E) as Hr.
  assert (J : forall ex, In ex exs -> exists ms, learn_joint levels members targets ex = Ok ms).
  { intros ex Hex. destruct (ex_bounds _ _ _ _ _ _ _ _ _ _ Hn Hc HK E Hex) as [Lx Hb].
    destruct (joint_pdf levels members targets Hr ex) as [ms [Em _]]; [destruct ex; [cbn in Lx; lia|discriminate]|exact Hb|eauto]. }
  assert (G : exists models, rsequence (map (learn_joint levels members targets) exs) = Ok models).
  { clear - J. induction exs as [|ex exs IH]; [exists []; reflexivity|]. destruct (J ex (or_introl eq_refl)) as [ms Em].
    destruct IH as [models E]; [intros e He; apply J; right; exact He|]. exists (ms :: models). cbn. rewrite Em, E. reflexivity. }
  destruct G as [models Em]. pose proof Em as Em'. apply seq_each in Em'. pose proof (f2_len _ _ _ Em') as Lm.
  unfold knn_sample, learn_all. rewrite E. cbn [rbind]. rewrite Em. cbn [rbind]. rewrite <- Lm, L.
  destruct (Hw K (Z.to_nat n) ltac:(lia)) as [Lw Hw'].
  assert (R : forall l k, (forall j, In j l -> (j < K)%nat) -> exists rows,
    rsequence (map (fun ij => match nth_error models (snd ij) with
      | Some ms => Ok (map (fun qm => (fst qm, local_sample gauss pick (fst ij) (fst qm) (snd qm))) (combine targets ms))
      | None => Err IndexError end) (combine (seq k (length l)) l)) = Ok rows /\ length rows = length l /\
    forall row, In row rows -> dkeys row = targets /\ (forall q v, In (q, v) row -> possible levels q v) /\
      exists ex, In ex exs /\ 0 < product_pdf levels members row ex).
  { induction l as [|j l IH]; intros k Hj; [exists []; split; [reflexivity|]; split; [reflexivity|]; intros row0 []|].
    destruct (IH (S k)) as [rows [R1 [R2 R3]]]; [intros j' Hj'; apply Hj; right; exact Hj'|].
    specialize (Hj j (or_introl eq_refl)). destruct (nth_error models j) as [ms|] eqn:Ej; [|apply nth_error_None in Ej; lia].
    destruct (nth_error exs j) as [ex|] eqn:Ex; [|apply nth_error_None in Ex; lia].
    pose proof (f2_nth _ _ _ _ _ _ Em' Ex Ej) as Ems. apply nth_error_In in Ex.
    destruct (ex_bounds _ _ _ _ _ _ _ _ _ _ Hn Hc HK E Ex) as [Lx Hb].
    destruct (joint_sample gauss pick Hp levels members targets k ex ms Hr ltac:(destruct ex; [cbn in Lx; lia|discriminate]) Hb Ems) as [S1 [S2 S3]].
    exists (map (fun qm => (fst qm, local_sample gauss pick k (fst qm) (snd qm))) (combine targets ms) :: rows).
    split. { cbn [length seq combine map rsequence fst snd]. rewrite Ej, R1. reflexivity. }
    split; [cbn; lia|]. intros row [<-|Hrow]; [|apply R3; exact Hrow]. split; [exact S1|]. split; [exact S2|]. exists ex. auto. }
  destruct (R (which K (Z.to_nat n)) 0%nat Hw') as [rows [R1 [R2 R3]]]. exists rows. split; [exact R1|]. split; [congruence|].
  intros row Hrow. destruct (R3 row Hrow) as [S1 [S2 [ex [Hex S3]]]]. split; [exact S1|]. split; [exact S2|]. exists ex. split; [exact Hex|]. split; [exact S3|].
  intros i q k v Hi Hq. unfold product_pdf in S3.
  assert (Pi : local_pdf levels q (column members i ex) (fin v) <> 0).
  { clear - S3 Hi. assert (G : forall row k i, nth_error row i = Some (q, v) ->
      0 < prod (map (fun iqv => local_pdf levels (fst (snd iqv)) (column members (fst iqv) ex) (fin (snd (snd iqv)))) (combine (seq k (length row)) row)) ->
      local_pdf levels q (column members (k + i) ex) (fin v) <> 0).
    { clear. induction row as [|[q0 v0] row IH]; intros k i Hi Sp; [destruct i; discriminate|]. cbn [length seq combine map fst snd prod fold_right] in Sp.
      destruct i as [|i].
      - injection Hi as -> ->. rewrite Nat.add_0_r. intros F. rewrite F in Sp. lra.
      - replace (k + S i)%nat with (S k + i)%nat by lia. apply (IH (S k) i Hi).
        set (a := local_pdf levels q0 (column members k ex) (fin v0)) in Sp.
        assert (Ha : 0 <= a).
        { unfold a, local_pdf. destruct (dget q0 levels).
          - unfold share. destruct (column members k ex) as [|y l]; [cbn; unfold Rdiv; rewrite Rmult_0_l; lra|].
            apply Rmult_le_pos; [apply pos_INR|]. left. apply Rinv_0_lt_compat, lt_0_INR. cbn. lia.
          - unfold bell. left. apply Rmult_lt_0_compat; [apply exp_pos|]. apply Rinv_0_lt_compat. apply Rmult_lt_0_compat.
            + pose proof (Rmax_r (spread (column members k ex)) (1 / 100)). lra.
            + apply sqrt_lt_R0. pose proof PI_RGT_0. lra. }
        fold (prod (map (fun iqv => local_pdf levels (fst (snd iqv)) (column members (fst iqv) ex) (fin (snd (snd iqv)))) (combine (seq (S k) (length row)) row))) in Sp.
        set (b := prod _) in *. destruct Ha as [Ha|Ha]; [|rewrite <- Ha in Sp; lra]. apply (Rmult_lt_reg_l a); [exact Ha|]. lra. }
    apply (G row 0%nat i Hi S3). }
  unfold local_pdf in Pi. rewrite Hq in Pi. unfold share in Pi.
  destruct (filter (fun y => Reqb y (fin v)) (column members i ex)) as [|y l] eqn:Ef.
  - exfalso. apply Pi. cbn. unfold Rdiv. ring.
  - assert (Hy : In y (filter (fun y => Reqb y (fin v)) (column members i ex))) by (rewrite Ef; left; reflexivity).
    apply filter_In in Hy. destruct Hy as [Hy1 Hy2]. apply Reqb_true in Hy2. subst y. exact Hy1.
Qed.
Print Assumptions C56_samples.

(** The number of a sample names the locality chosen for it; from the rows [l] of this
    locality a number is drawn with their mean and deviation (at least 1/100), a category
    with their shares. *)
Definition drawn (levels : dict Z) (gauss : nat -> Z -> R -> R -> R) (pick : nat -> Z -> list R -> nat) (t : nat) (q : Z) (l : list R) (v : ext) : Prop :=
  match dget q levels with
  | None => v = Fin (gauss t q (Rsum l / INR (length l)) (Rmax (spread l) (1 / 100)))
  | Some k => exists p, v = Fin (INR (pick t q p)) /\ length p = Z.to_nat k /\ forall c, (c < Z.to_nat k)%nat -> nth c p 0 = share (INR c) l
  end.
Lemma learn_drawn levels gauss pick q l m t : l <> [] -> Forall (possible levels q) (map Fin l) -> learn levels q l = Ok m ->
  drawn levels gauss pick t q l (local_sample gauss pick t q m).
Proof.
  intros Hl H Em. destruct (learn_pdf levels q l Hl H) as [m' [Em' Hm]]. rewrite Em in Em'. injection Em' as <-.
  unfold drawn. unfold learn in Em. unfold possible in Hm. destruct (dget q levels) as [k|] eqn:Eq.
  - destruct (forallb (fun l => Rleb 0 l && Rltb l (IZR k)) l); [|discriminate]. injection Em as <-. cbn [local_sample].
    set (counts := map (fun c => Z.of_nat (length (filter (fun l => (trunc l =? Z.of_nat c)%Z) l))) (seq 0 (Z.to_nat k))) in *.
    set (p := map (fun c => IZR c / IZR (zsum counts)) counts) in *. exists p. split; [reflexivity|].
    assert (Lp : length p = Z.to_nat k) by (unfold p, counts; rewrite !map_length, seq_length; reflexivity). split; [exact Lp|].
    intros c Hc. assert (Hk : category k (Fin (INR c))) by (exists (Z.of_nat c); rewrite INR_IZR_INZ; split; [reflexivity|lia]).
    destruct (Hm (Fin (INR c)) Hk) as [e [Ee We]]. cbn [local_logpdf fin] in Ee, We. unfold local_pdf in We. rewrite Eq in We.
    unfold np_index in Ee. rewrite INR_IZR_INZ in Ee. rewrite (proj2 (is_intb_true _)) in Ee by eauto. rewrite trunc_IZR in Ee.
    destruct (Z.ltb_spec (Z.of_nat c) 0); [lia|]. destruct (Z.leb_spec 0 (Z.of_nat c)); [|lia]. rewrite Nat2Z.id in Ee.
    destruct (nth_error p c) as [w|] eqn:Ew; [|apply nth_error_None in Ew; lia]. cbn [rbind] in Ee. injection Ee as <-.
    rewrite (nth_error_nth p c 0 Ew).
    assert (Hw : 0 <= w).
    { apply nth_error_In in Ew. unfold p in Ew. apply in_map_iff in Ew. destruct Ew as [z [<- Hz]].
      assert (Hall : forall z, In z counts -> (0 <= z)%Z) by (intros z' Hz'; unfold counts in Hz'; apply in_map_iff in Hz'; destruct Hz' as [c' [<- _]]; lia).
      assert (Hs : (0 <= zsum counts)%Z).
      { clear - Hall. induction counts as [|a counts IH]; [cbn; lia|]. cbn. pose proof (Hall a (or_introl eq_refl)).
        assert (0 <= zsum counts)%Z by (apply IH; intros z Hz; apply Hall; right; exact Hz). unfold zsum in *. lia. }
      destruct (Z.eq_dec (zsum counts) 0) as [->|Hne]; [unfold Rdiv; rewrite Rinv_0, Rmult_0_r; lra|].
      apply Rmult_le_pos; [apply IZR_le, Hall, Hz|]. left. apply Rinv_0_lt_compat, IZR_lt. lia. }
    destruct (Rltb 0 w) eqn:E0.
    + apply Rltb_true in E0. destruct We as [[a [Ea ->]]|[F _]]; [|discriminate]. injection Ea as <-. symmetry. apply exp_ln. exact E0.
    + apply Rltb_false in E0. destruct We as [[a [Ea _]]|[_ We]]; [discriminate|]. lra.
  - injection Em as <-. cbn [local_sample]. rewrite <- std_spread. reflexivity.
Qed.
Theorem C56_draws : forall near choose levels K M which gauss pick members targets constraints exs n rows,
  near_ok near -> choose_ok choose -> which_ok which -> (1 <= K)%nat -> (1 <= M)%nat ->
  (forall r, In r members -> length r = (length targets + length constraints)%nat) ->
  neighborhoods near choose levels K M members targets constraints = Ok exs ->
  knn_sample near choose levels K M which gauss pick members targets constraints n = Ok rows ->
  forall t row, nth_error rows t = Some row ->
    exists ex, nth_error exs (nth t (which (length exs) (Z.to_nat n)) 0%nat) = Some ex /\
      forall i q, nth_error targets i = Some q -> exists v, nth_error row i = Some (q, v) /\ drawn levels gauss pick t q (column members i ex) v.
Proof.
  intros near choose levels K M which gauss pick members targets constraints exs n rows Hn Hc Hw HK HM Hl E ER.
  pose proof (rows_possible _ _ _ _ _ _ _ _ _ Hl E) as Hr.
  unfold knn_sample, learn_all in ER. rewrite E in ER. cbn [rbind] in ER.
  destruct (rsequence (map (learn_joint levels members targets) exs)) as [models|] eqn:Em; [|discriminate]. cbn [rbind] in ER.
  apply seq_each in Em. pose proof (f2_len _ _ _ Em) as Lm. rewrite <- Lm in ER. apply seq_each in ER. intros t row Et.
  set (idx := which (length exs) (Z.to_nat n)) in *.
  assert (Lt : (t < length idx)%nat).
  { apply f2_len in ER. rewrite combine_length, seq_length, Nat.min_id in ER. rewrite ER. apply nth_error_Some. congruence. }
  assert (Ec : nth_error (combine (seq 0 (length idx)) idx) t = Some (t, nth t idx 0%nat)).
  { rewrite (nth_error_nth' _ (0, 0)%nat) by (rewrite combine_length, seq_length, Nat.min_id; exact Lt).
    rewrite combine_nth by (rewrite seq_length; reflexivity). rewrite seq_nth by exact Lt. reflexivity. }
  pose proof (f2_nth _ _ _ _ _ _ ER Ec Et) as Es. cbn [fst snd] in Es.
  destruct (nth_error models (nth t idx 0%nat)) as [ms|] eqn:Ej; [|discriminate]. injection Es as <-.
  assert (Hj : (nth t idx 0 < length exs)%nat) by (rewrite Lm; apply nth_error_Some; congruence).
  destruct (nth_error exs (nth t idx 0%nat)) as [ex|] eqn:Ex; [|apply nth_error_None in Ex; lia]. exists ex. split; [reflexivity|].
  pose proof (f2_nth _ _ _ _ _ _ Em Ex Ej) as Ems. apply nth_error_In in Ex.
  destruct (ex_bounds _ _ _ _ _ _ _ _ _ _ Hn Hc HK E Ex) as [Lx Hb]. unfold learn_joint in Ems. apply seq_each in Ems.
  intros i q Hi. assert (Hil : (i < length targets)%nat) by (apply nth_error_Some; congruence).
  assert (Eci : nth_error (combine (seq 0 (length targets)) targets) i = Some (i, q)).
  { rewrite (nth_error_nth' _ (0%nat, 0%Z)) by (rewrite combine_length, seq_length, Nat.min_id; exact Hil).
    rewrite combine_nth by (rewrite seq_length; reflexivity). rewrite seq_nth by exact Hil. rewrite (nth_error_nth _ _ _ Hi). reflexivity. }
  destruct (nth_error ms i) as [m|] eqn:Emi.
  2:{ apply nth_error_None in Emi. apply f2_len in Ems. rewrite combine_length, seq_length, Nat.min_id in Ems. lia. }
  pose proof (f2_nth _ _ _ _ _ _ Ems Eci Emi) as Eme. cbn [fst snd] in Eme.
  destruct (column_possible levels members targets Hr ex i q Hb Hi) as [Ecol P]. rewrite Ecol in Eme. cbn [rbind] in Eme.
  exists (local_sample gauss pick t q m). split.
  - refine (map_nth_error (fun qm => (fst qm, local_sample gauss pick t (fst qm) (snd qm))) i (combine targets ms) (d := (q, m)) _).
    clear - Hi Emi. revert ms i Hi Emi. induction targets as [|a l IH]; intros ms i Hi Emi; [destruct i; discriminate|].
    destruct ms as [|m0 ms]; [destruct i; discriminate|]. destruct i as [|i]; cbn in *; [congruence|]. apply IH; assumption.
  - apply learn_drawn; [unfold column; destruct ex; [cbn in Lx; lia|discriminate]|exact P|exact Eme].
Qed.
Print Assumptions C56_draws.

(* ------------------------------------------------------------------ *)
(** ** Witnesses *)

(** A search by insertion. *)
Fixpoint put (f : nat -> R) (j : nat) (l : list nat) : list nat :=
  match l with
  | [] => [j]
  | i :: l' => if Rleb (f j) (f i) then j :: l else i :: put f j l'
  end.
Definition near_w (D : list (list R)) (x : list R) : list nat := fold_right (put (far D x)) [] (seq 0 (length D)).
Lemma put_perm f j l : Permutation (put f j l) (j :: l).
Proof.
  induction l as [|i l IH]; cbn; [constructor; constructor|]. destruct (Rleb (f j) (f i)); [apply Permutation_refl|].
  rewrite IH. apply perm_swap.
Qed.
Lemma put_sorted f j l : StronglySorted (fun a b => f a <= f b) l -> StronglySorted (fun a b => f a <= f b) (put f j l).
Proof.
  induction l as [|i l IH]; intros H; cbn; [constructor; constructor|]. apply StronglySorted_inv in H. destruct H as [H F].
  destruct (Rleb (f j) (f i)) eqn:E.
  - apply Rleb_true in E. constructor; [constructor; assumption|]. constructor; [exact E|].
    rewrite Forall_forall in *. intros b Hb. specialize (F b Hb). lra.
  - assert (Hij : f i <= f j) by (destruct (Rle_lt_dec (f j) (f i)) as [C|C]; [apply Rleb_true in C; congruence|lra]).
    constructor; [apply IH; exact H|]. apply Forall_forall. intros b Hb. apply (Permutation_in _ (put_perm f j l)) in Hb.
    destruct Hb as [<-|Hb]; [exact Hij|]. rewrite Forall_forall in F. auto.
Qed.
Lemma near_w_ok : near_ok near_w.
Proof.
  intros D x. unfold near_w. generalize (seq 0 (length D)). intros l. induction l as [|j l [IH1 IH2]]; cbn [fold_right]; [split; constructor|].
  split; [rewrite put_perm; constructor; exact IH1|apply put_sorted; exact IH2].
Qed.

Lemma firstn_ok {A} (l l' : list A) k : Permutation l' l -> NoDup l -> (k <= length l)%nat ->
  length (firstn k l') = k /\ NoDup (firstn k l') /\ incl (firstn k l') l.
Proof.
  intros P N Hk. pose proof (Permutation_length P) as L. assert (N' : NoDup l') by exact (Permutation_NoDup (Permutation_sym P) N).
  split; [rewrite firstn_length; lia|]. rewrite <- (firstn_skipn k l') in N', P. split.
  - clear - N'. induction (firstn k l') as [|a m IH]; [constructor|]. cbn [app] in N'. apply NoDup_cons_iff in N'. destruct N' as [N1 N2].
    constructor; [intros H; apply N1, in_or_app; auto|apply IH, N2].
  - intros a Ha. apply (Permutation_in _ P), in_or_app. auto.
Qed.
Definition choose_w (l : list nat) (k : nat) : list nat := firstn k l.
Lemma choose_w_ok : choose_ok choose_w.
Proof. intros l k N Hk. apply firstn_ok; [apply Permutation_refl|exact N|exact Hk]. Qed.
(** A choice that the generator can make as well: row 0 comes last. *)
Definition choose_late (l : list nat) (k : nat) : list nat :=
  firstn k (filter (fun i => negb (Nat.eqb i 0)) l ++ filter (Nat.eqb 0) l).
Lemma choose_late_ok : choose_ok choose_late.
Proof.
  intros l k N Hk. apply firstn_ok; [|exact N|exact Hk]. clear. induction l as [|a l IH]; [constructor|]. cbn [filter].
  destruct a as [|a]; cbn [negb Nat.eqb].
  - rewrite <- Permutation_middle. constructor. exact IH.
  - cbn [app]. constructor. exact IH.
Qed.
Definition which_w (k n : nat) : list nat := repeat (k - 1)%nat n.
Lemma which_w_ok : which_ok which_w.
Proof.
  intros k n Hk. unfold which_w. split; [apply repeat_length|]. intros j Hj. apply repeat_spec in Hj. lia.
Qed.
Definition pick_w (i : nat) (q : Z) (p : list R) : nat :=
  (fix go (p : list R) := match p with [] => 0%nat | w :: p' => if Rltb 0 w then 0%nat else S (go p') end) p.
Lemma pick_w_ok : pick_ok pick_w.
Proof.
  intros i q p. unfold pick_w. induction p as [|w p IH]; intros [v [Hv Hp]]; [destruct Hv|]. destruct (Rltb 0 w) eqn:E.
  - exists w. split; [reflexivity|]. apply Rltb_true. exact E.
  - destruct Hv as [->|Hv]; [apply Rltb_true in Hp; congruence|]. apply IH. eauto.
Qed.

(* ------------------------------------------------------------------ *)
(** ** What fails *)

(** Three rows: one at the very place asked about and two at distance 1.  With K = 2 the
    three are candidates, since all are within the distance of the second, and the random
    choice may leave out the row at distance 0. *)
Theorem C56_nearest_refuted : exists near choose K D x, near_ok near /\ choose_ok choose /\ (1 <= K <= length D)%nat /\
  exists j j', In j (nearest near choose K D x) /\ (j' < length D)%nat /\ ~ In j' (nearest near choose K D x) /\ far D x j' < far D x j.
Proof.
  exists near_w, choose_late, 2%nat, [[0]; [1]; [-1]], [0]. split; [exact near_w_ok|]. split; [exact choose_late_ok|]. split; [cbn; lia|].
  set (D := [[0]; [1]; [-1]]).
  assert (F0 : far D [0] 0 = 0) by (unfold far, D; cbn [nth squares]; replace ((0 - 0) ^ 2 + 0) with 0 by ring; apply sqrt_0).
  assert (F1 : far D [0] 1 = 1) by (unfold far, D; cbn [nth squares]; replace ((1 - 0) ^ 2 + 0) with 1 by ring; apply sqrt_1).
  assert (F2 : far D [0] 2 = 1) by (unfold far, D; cbn [nth squares]; replace ((-1 - 0) ^ 2 + 0) with 1 by ring; apply sqrt_1).
  assert (No : near_w D [0] = [0; 1; 2]%nat).
  { unfold near_w. change (seq 0 (length D)) with [0; 1; 2]%nat. cbn [fold_right put]. rewrite F1, F2, (proj2 (Rleb_true 1 1)) by lra. cbn [put].
    rewrite F0, F1, (proj2 (Rleb_true 0 1)) by lra. reflexivity. }
  assert (E : nearest near_w choose_late 2 D [0] = [1; 2]%nat).
  { rewrite (nearest_cases near_w choose_late near_w_ok D [0] 2) by (cbn; lia).
    assert (C : candidates near_w D [0] 2 = [0; 1; 2]%nat).
    { unfold candidates, radius. rewrite No. cbn [nth Nat.sub filter]. rewrite F0, F1, F2.
      rewrite (proj2 (Rleb_true 0 1)), (proj2 (Rleb_true 1 1)) by lra. reflexivity. }
    rewrite C. reflexivity. }
  rewrite E. exists 1%nat, 0%nat. split; [left; reflexivity|]. split; [cbn; lia|]. split; [intros [H|[H|[]]]; discriminate|].
  rewrite F0, F1. lra.
Qed.
Print Assumptions C56_nearest_refuted.

(** Two complete rows, one constraint and one numerical target. *)
Definition two_rows : list (list ext) := [[Fin 5; Fin 0]; [Fin 7; Fin 1]].
Lemma two_rows_found near choose K M : (K <= 2)%nat ->
  exists exs, neighborhoods near choose [] K M two_rows [0%Z] [(1%Z, Fin 0)] = Ok exs.
Proof.
  intros HK. apply C56_succeeds.
  - intros r [<-|[<-|[]]]; reflexivity.
  - split; [discriminate|]. split; [exact HK|]. split.
    + intros q v [E|[]]. injection E as <- <-. exists 0. reflexivity.
    + intros r i q v Hr _ Hv. unfold possible. cbn [dget]. apply nth_error_In in Hv.
      destruct Hr as [<-|[<-|[]]]; destruct Hv as [<-|[<-|[]]]; eauto.
Qed.

(** M rows are asked for and exist, but the localities have K. *)
Theorem C56_locality_refuted : exists near choose levels K M members targets constraints exs,
  near_ok near /\ choose_ok choose /\ (1 <= K)%nat /\ (M <= length members)%nat /\
  neighborhoods near choose levels K M members targets constraints = Ok exs /\
  exists ex, In ex exs /\ (length ex < M)%nat.
Proof.
  destruct (two_rows_found near_w choose_w 1 2 ltac:(lia)) as [exs E].
  exists near_w, choose_w, [], 1%nat, 2%nat, two_rows, [0%Z], [(1%Z, Fin 0)], exs.
  split; [exact near_w_ok|]. split; [exact choose_w_ok|]. split; [lia|]. split; [cbn; lia|]. split; [exact E|].
  destruct (C56_locality_partial _ _ _ _ _ _ _ _ _ near_w_ok choose_w_ok (Nat.le_refl 1) E) as [De [D [x [_ [L H]]]]].
  destruct exs as [|ex exs]; [discriminate|]. exists ex. split; [left; reflexivity|].
  destruct (H 0%nat ex eq_refl) as [j [_ [Lx _]]]. rewrite Lx. cbn. lia.
Qed.
Print Assumptions C56_locality_refuted.

(** One complete row, with the last of two categories, and a numerical constraint. *)
Definition one_row : list (list ext) := [[Fin 1; Fin 0]].
Lemma one_row_found near choose : near_ok near -> choose_ok choose ->
  neighborhoods near choose [(0, 2)]%Z 1 1 one_row [0%Z] [(1%Z, Fin 0)] = Ok [[0%nat]].
Proof.
  intros Hn Hc.
  assert (E : exists exs, neighborhoods near choose [(0, 2)]%Z 1 1 one_row [0%Z] [(1%Z, Fin 0)] = Ok exs).
  { apply C56_succeeds.
    - intros r [<-|[]]; reflexivity.
    - split; [discriminate|]. split; [cbn; lia|]. split.
      + intros q v [E|[]]. injection E as <- <-. exists 0. reflexivity.
      + intros r i q v [<-|[]] Hq Hv. destruct i as [|[|i]].
        * injection Hq as <-. injection Hv as <-. exists 1%Z. split; [reflexivity|lia].
        * injection Hq as <-. injection Hv as <-. exists 0. reflexivity.
        * destruct i; discriminate. }
  destruct E as [exs E]. rewrite E. f_equal.
  destruct (C56_locality_partial _ _ _ _ _ _ _ _ _ Hn Hc (Nat.le_refl 1) E) as [De [D [x [_ [L H]]]]].
  destruct exs as [|ex [|ex' exs]]; try discriminate. destruct (H 0%nat ex eq_refl) as [j [_ [Lx [_ [Hb _]]]]].
  destruct ex as [|a [|a' ex]]; try discriminate. specialize (Hb a (or_introl eq_refl)). cbn in Hb. replace a with 0%nat by lia. reflexivity.
Qed.

(** No density is expected at a value that is no category; but -1 has that of the last. *)
Theorem C56_support_refuted : exists near choose levels K M members targets constraints q k v,
  near_ok near /\ choose_ok choose /\ targets = [(q, v)] /\ dget q levels = Some k /\ ~ category k v /\
  exists e w, knn_density near choose levels K M members targets constraints = Ok e /\ weight_of e w /\ 0 < w.
Proof.
  exists near_w, choose_w, [(0, 2)]%Z, 1%nat, 1%nat, one_row, [(0%Z, Fin (-1))], [(1%Z, Fin 0)], 0%Z, 2%Z, (Fin (-1)).
  split; [exact near_w_ok|]. split; [exact choose_w_ok|]. split; [reflexivity|]. split; [reflexivity|].
  split. { intros [z [E Hz]]. injection E as E. apply (eq_IZR (-1) z) in E. lia. }
  assert (Lm : learn [(0, 2)]%Z 0 [1] = Ok (Lcat [0 / 1; 1 / 1])).
  { unfold learn. cbn [dget Z.eqb forallb]. rewrite (proj2 (Rleb_true 0 1)), (proj2 (Rltb_true 1 2)) by lra. cbn [andb].
    change (seq 0 (Z.to_nat 2)) with [0; 1]%nat. cbn [map filter]. rewrite (trunc_IZR 1). reflexivity. }
  unfold knn_density, learn_all. change (dkeys [(0%Z, Fin (-1))]) with [0%Z].
  rewrite (one_row_found near_w choose_w near_w_ok choose_w_ok). cbn [rbind map rsequence]. unfold learn_joint. cbn [length seq combine map fst snd].
  change (reals [nth 0 (nth 0 one_row []) NaN]) with (Ok [1]). cbn [rbind]. rewrite Lm. cbn [rsequence rbind map].
  assert (Ll : local_logpdf (Lcat [0 / 1; 1 / 1]) (Fin (-1)) = Ok (Fin (ln (1 / 1)))).
  { unfold local_logpdf, np_index. rewrite (proj2 (is_intb_true (-1))) by (exists (-1)%Z; reflexivity). rewrite (trunc_IZR (-1)).
    change (rbind (Ok (1 / 1)) (fun v => Ok (if Rltb 0 v then Fin (ln v) else NInf)) = Ok (Fin (ln (1 / 1)))). cbn [rbind].
    rewrite (proj2 (Rltb_true 0 (1 / 1))) by lra. reflexivity. }
  unfold joint_logpdf. cbn [map combine fst snd]. rewrite Ll. cbn [rsequence rbind map].
  set (l := esum [Fin (ln (1 / 1))]). assert (Wl : weight_of l 1).
  { replace 1 with (prod [1]) by (cbn; ring). apply esum_weights. constructor; [|constructor]. left. exists (ln (1 / 1)). split; [reflexivity|]. rewrite exp_ln by lra. lra. }
  destruct (C14_logsumexp [l] [1]) as [z [Ez Wz]]; [constructor; [exact Wl|constructor]|].
  fold l. rewrite Ez. cbn [rbind]. eexists. exists (Rsum [1] * 1). split; [reflexivity|]. split.
  - apply weight_add; [exact Wz|]. left. eexists. split; [reflexivity|]. cbn. rewrite ln_1, Ropp_0, exp_0. reflexivity.
  - cbn. lra.
Qed.
Print Assumptions C56_support_refuted.

(** Samples of a component, after any history of rows, for a new row and constraints. *)
Theorem C56_simulate : forall near choose levels g K M choice which gauss pick cs r targets constraints members exs N,
  near_ok near -> choose_ok choose -> which_ok which -> pick_ok pick -> (1 <= K)%nat -> (1 <= M)%nat -> NoDup (t_out g) ->
  ~ In r (map fst (ledger (table_accepts g) cs)) ->
  knn_fine g (Z.of_nat K) (table_run g cs) targets [] constraints (Some match N with None => 1%Z | Some n => n end) ->
  dataset g (table_run g cs) (targets ++ dkeys constraints) = Ok members ->
  neighborhoods near choose levels K M members targets constraints = Ok exs ->
  exists a, knn_simulate g (Z.of_nat K) choice (fun _ => knn_sample near choose levels K M which gauss pick)
      (table_run g cs) r targets constraints [] N = Ok a /\
    match a with One_row _ => N = None | Rows_list l => N = Some (Z.of_nat (length l)) end /\
    forall row, In row (match a with One_row d => [d] | Rows_list l => l end) ->
      dkeys row = targets /\ exists ex, In ex exs /\ 0 < product_pdf levels members row ex.
Proof.
  intros near choose levels g K M choice which gauss pick cs r targets constraints members exs N Hn Hc Hw Hp HK HM Hg Hr Hf Hd E.
  set (n := match N with None => 1%Z | Some n => n end) in *.
  assert (Hl : forall row, In row members -> length row = (length targets + length constraints)%nat).
  { intros row Hrow. rewrite (dataset_rows _ _ _ _ _ Hd Hrow), app_length. unfold dkeys. rewrite map_length. reflexivity. }
  destruct (C56_samples near choose levels K M which gauss pick members targets constraints exs n Hn Hc Hw Hp HK HM Hl E) as [rows [Er [Lr Hrows]]].
  pose proof Hf as [Hpos _]. specialize (Hpos n eq_refl).
  destruct (neighborhoods_points _ _ _ _ _ _ _ _ _ E) as [_ [Hc' _]].
  assert (X : rbind (match constraints with
         | _ :: _ => knn_given g (Z.of_nat K) (knn_sample near choose levels K M which gauss pick) (table_run g cs) targets constraints n
         | [] => rbind (knn_fallback g (Z.of_nat K) choice (fun _ => knn_sample near choose levels K M which gauss pick) (table_run g cs) r targets n) (fun l =>
                 if (Z.of_nat (length l) =? n)%Z then Ok l else Err AssertionError)
         end) (fun results =>
    match N with
    | Some _ => Ok (Rows_list results)
    | None => match results with r :: _ => Ok (One_row r) | [] => Err IndexError end
    end) = match N with Some _ => Ok (Rows_list rows) | None => match rows with r :: _ => Ok (One_row r) | [] => Err IndexError end end).
  { destruct constraints as [|c0 cs0]; [congruence|]. unfold knn_given. rewrite Hd. cbn [rbind]. rewrite Er. reflexivity. }
  unfold knn_simulate. fold n. rewrite (populate_new g cs r) by assumption. cbn [rbind].
  rewrite (proj2 (proj1 (C50_knn_accepts g (Z.of_nat K) (table_run g cs) targets [] constraints (Some n))) Hf). cbn [rbind].
  rewrite X. destruct N as [n0|].
  - exists (Rows_list rows). split; [reflexivity|]. split; [f_equal; unfold n in *; lia|].
    intros row Hrow. destruct (Hrows row Hrow) as [K1 [_ [ex [K2 [K3 _]]]]]. eauto.
  - destruct rows as [|row rows]; [cbn in Lr; discriminate|]. exists (One_row row). split; [reflexivity|]. split; [reflexivity|].
    intros row' [<-|[]]. destruct (Hrows row (or_introl eq_refl)) as [K1 [_ [ex [K2 [K3 _]]]]]. eauto.
Qed.
Print Assumptions C56_simulate.

(* ------------------------------------------------------------------ *)
(** ** Concrete cases *)

(** Three rows entered into a component with columns 1 (two categories) and 2 (numbers). *)
Definition ex_levels : dict Z := [(1, 2)]%Z.
Definition ex_calls : list call :=
  [Inc 5 [(1, Fin 1); (2, Fin 4)] []; Inc 7 [(1, Fin 0); (2, Fin 9)] []; Inc 8 [(1, Fin 1); (2, Fin 2)] []]%Z.
Definition ex_members : list (list ext) := [[Fin 1; Fin 4]; [Fin 0; Fin 9]; [Fin 1; Fin 2]].
Lemma ex_found near choose K M : (K <= 3)%nat ->
  exists exs, neighborhoods near choose ex_levels K M ex_members [1%Z] [(2%Z, Fin 3)] = Ok exs.
Proof.
  intros HK. apply C56_succeeds.
  - intros r [<-|[<-|[<-|[]]]]; reflexivity.
  - split; [discriminate|]. split; [exact HK|]. split.
    + intros q v [E|[]]. injection E as <- <-. exists 3. reflexivity.
    + intros r i q v Hr Hq Hv. destruct i as [|[|i]]; [| |destruct i; discriminate]; injection Hq as <-; unfold possible; cbn [dget ex_levels Z.eqb Pos.eqb].
      * destruct Hr as [<-|[<-|[<-|[]]]]; injection Hv as <-; [exists 1%Z|exists 0%Z|exists 1%Z]; (split; [reflexivity|lia]).
      * destruct Hr as [<-|[<-|[<-|[]]]]; injection Hv as <-; eauto.
Qed.

Example C56_succeeds_ex : (forall r, In r ex_members -> length r = (length [1%Z] + length [(2%Z, Fin 3)])%nat) /\
  exists exs, neighborhoods near_w choose_w ex_levels 2 2 ex_members [1%Z] [(2%Z, Fin 3)] = Ok exs /\ length exs = 2%nat.
Proof.
  split; [intros r [<-|[<-|[<-|[]]]]; reflexivity|]. destruct (ex_found near_w choose_w 2 2 ltac:(lia)) as [exs E]. exists exs.
  split; [exact E|]. destruct (C56_locality_partial _ _ _ _ _ _ _ _ _ near_w_ok choose_w_ok (Nat.le_succ_diag_r 1) E) as [? [? [? [_ [L _]]]]]. exact L.
Qed.
Example C56_point_ex : represents ex_levels [1%Z; 2%Z] [Fin 0; Fin 9] [1; 9] /\ represents ex_levels [1%Z; 2%Z] [Fin 1; Fin 4] [0; 4].
Proof.
  split.
  - apply (rep_category ex_levels 1%Z [2%Z] 2 0 [Fin 9] [1] [9]); [reflexivity|lia|reflexivity| |].
    + intros [|j] Hj; [reflexivity|cbn in Hj; lia].
    + apply rep_number; [reflexivity|constructor].
  - apply (rep_category ex_levels 1%Z [2%Z] 2 1 [Fin 4] [0] [4]); [reflexivity|lia|reflexivity| |].
    + intros [|j] Hj; [reflexivity|cbn in Hj; lia].
    + apply rep_number; [reflexivity|constructor].
Qed.

(** Rows at 4, 9 and 2, asked about at 3: rows 0 and 2 are within 1, row 1 is not. *)
Lemma ex_within : within [[4]; [9]; [2]] [3] 1 = [0; 2]%nat.
Proof.
  unfold within. change (seq 0 (length [[4]; [9]; [2]])) with [0; 1; 2]%nat. unfold far. cbn [filter nth squares].
  replace ((4 - 3) ^ 2 + 0) with 1 by ring. replace ((9 - 3) ^ 2 + 0) with (6 * 6) by ring. replace ((2 - 3) ^ 2 + 0) with 1 by ring.
  rewrite sqrt_1, sqrt_square by lra. rewrite (proj2 (Rleb_true 1 1)) by lra.
  assert (F : Rleb 6 1 = false) by (apply not_true_is_false; rewrite Rleb_true; lra). rewrite F. reflexivity.
Qed.
Example C56_nearest_ex : near_ok near_w /\ choose_ok choose_w /\ length (within [[4]; [9]; [2]] [3] 1) = 2%nat /\
  Permutation (nearest near_w choose_w 2 [[4]; [9]; [2]] [3]) [0; 2]%nat.
Proof.
  split; [exact near_w_ok|]. split; [exact choose_w_ok|]. split; [rewrite ex_within; reflexivity|].
  rewrite <- ex_within. apply C56_nearest_exact; [exact near_w_ok|exact choose_w_ok|lia|rewrite ex_within; reflexivity].
Qed.

(** Three localities with all three rows each: two of three rows have category 1. *)
Example C56_mixture_ex : exists exs v, neighborhoods near_w choose_w ex_levels 3 3 ex_members [1%Z] [(2%Z, Fin 3)] = Ok exs /\
  knn_density near_w choose_w ex_levels 3 3 ex_members [(1%Z, Fin 1)] [(2%Z, Fin 3)] = Ok v /\ weight_of v (2 / 3).
Proof.
  destruct (ex_found near_w choose_w 3 3 ltac:(lia)) as [exs E].
  destruct (C56_mixture near_w choose_w ex_levels 3 3 ex_members [(1%Z, Fin 1)] [(2%Z, Fin 3)] exs near_w_ok choose_w_ok) as [L [v [Ev Wv]]];
    [lia|lia|intros r [<-|[<-|[<-|[]]]]; reflexivity| |exact E|].
  { intros q v [F|[]]. injection F as <- <-. exists 1%Z. split; [reflexivity|lia]. }
  exists exs, v. split; [exact E|]. split; [exact Ev|].
  assert (P : forall ex, In ex exs -> product_pdf ex_levels ex_members [(1%Z, Fin 1)] ex = 2 / 3).
  { intros ex Hex. destruct (C56_locality_partial _ _ _ _ _ _ _ _ _ near_w_ok choose_w_ok (Nat.le_add_r 1 2) E) as [De [D [x [_ [_ H]]]]].
    apply In_nth_error in Hex. destruct Hex as [i Hi]. destruct (H i ex Hi) as [j [_ [Lx [Nx [Hb _]]]]]. clear H.
    assert (Pm : Permutation ex [0; 1; 2]%nat).
    { apply NoDup_Permutation_bis; [exact Nx|rewrite Lx; cbn; lia|]. intros a Ha. specialize (Hb a Ha). cbn in Hb. cbn. lia. }
    unfold product_pdf. cbn [length seq combine map fst snd fin]. change (prod ?l) with (fold_right Rmult 1 l). cbn [fold_right].
    unfold local_pdf. cbn [dget ex_levels Z.eqb Pos.eqb]. unfold share, column.
    rewrite (Permutation_length (perm_filter (fun y => Reqb y 1) _ _ (Permutation_map (fun j => fin (nth 0 (nth j ex_members []) NaN)) Pm))).
    rewrite map_length, Lx. cbn [map nth ex_members fin filter]. rewrite (proj2 (Reqb_true 1 1) eq_refl), (proj2 (Reqb_false 0 1)) by lra.
    cbn. lra. }
  unfold mixture_pdf in Wv. rewrite (map_ext_in _ (fun _ => 2 / 3)) in Wv by (intros ex Hex; apply P; exact Hex). rewrite Rsum_map_const, L in Wv.
  replace (2 / 3) with (INR 3 * (2 / 3) / INR 3) by (cbn; field). exact Wv.
Qed.
Example C56_normalised_ex : (forall q k, In (q, k) [(1, 2)]%Z -> dget q ex_levels = Some k) /\
  assignments [(1, 2)]%Z = [[(1%Z, Fin 0)]; [(1%Z, Fin 1)]].
Proof. split; [|reflexivity]. intros q k [E|[]]. injection E as <- <-. reflexivity. Qed.

Example C56_component_ex : exists exs, near_ok near_w /\ choose_ok choose_w /\ which_ok which_w /\ pick_ok pick_w /\ NoDup (t_out ex_knn) /\
  ~ In 9%Z (map fst (ledger (table_accepts ex_knn) ex_calls)) /\
  knn_fine ex_knn (Z.of_nat 2) (table_run ex_knn ex_calls) (dkeys [(1%Z, Fin 1)]) (map snd [(1%Z, Fin 1)]) [(2%Z, Fin 3)] None /\
  knn_fine ex_knn (Z.of_nat 2) (table_run ex_knn ex_calls) [1%Z] [] [(2%Z, Fin 3)] (Some 4%Z) /\
  dataset ex_knn (table_run ex_knn ex_calls) ([1] ++ dkeys [(2, Fin 3)])%Z = Ok ex_members /\
  (forall q v, In (q, v) [(1%Z, Fin 1)] -> possible ex_levels q v) /\
  neighborhoods near_w choose_w ex_levels 2 2 ex_members [1%Z] [(2%Z, Fin 3)] = Ok exs.
Proof.
  destruct (ex_found near_w choose_w 2 2 ltac:(lia)) as [exs E]. exists exs.
  split; [exact near_w_ok|]. split; [exact choose_w_ok|]. split; [exact which_w_ok|]. split; [exact pick_w_ok|].
  split; [repeat constructor; cbn; lia|]. split; [cbn; lia|].
  split. { split; [discriminate|]. split; [cbn; lia|]. split; [discriminate|]. split; [cbn; intuition|]. split; [cbn; lia|]. split; cbn; intuition discriminate. }
  split. { split; [intros n F; injection F as <-; lia|]. split; [cbn; lia|]. split; [discriminate|]. split; [cbn; intuition|]. split; [cbn; lia|]. split; cbn; intuition discriminate. }
  split; [reflexivity|]. split; [|exact E]. intros q v [F|[]]. injection F as <- <-. exists 1%Z. split; [reflexivity|lia].
Qed.

(** The three rows are different points. *)
Example C56_self_ex : forall j b, (j < 3)%nat -> (b < 3)%nat -> b <> j ->
  0 < far [[0; 4]; [1; 9]; [0; 2]] (nth j [[0; 4]; [1; 9]; [0; 2]] []) b.
Proof.
  intros j b Hj Hb N. unfold far. apply sqrt_lt_R0.
  destruct j as [|[|[|j]]]; [| | |lia]; (destruct b as [|[|[|b]]]; [| | |lia]); try (exfalso; apply N; reflexivity); cbn [nth squares]; nra.
Qed.

(** Four samples from localities of two rows each. *)
Example C56_draws_ex : exists exs rows, neighborhoods near_w choose_w ex_levels 2 2 ex_members [1%Z] [(2%Z, Fin 3)] = Ok exs /\
  knn_sample near_w choose_w ex_levels 2 2 which_w (fun _ _ mu _ => mu) pick_w ex_members [1%Z] [(2%Z, Fin 3)] 4 = Ok rows /\ length rows = 4%nat.
Proof.
  destruct (ex_found near_w choose_w 2 2 ltac:(lia)) as [exs E].
  destruct (C56_samples near_w choose_w ex_levels 2 2 which_w (fun _ _ mu _ => mu) pick_w ex_members [1%Z] [(2%Z, Fin 3)] exs 4
    near_w_ok choose_w_ok which_w_ok pick_w_ok) as [rows [R1 [R2 _]]]; [lia|lia|intros r [<-|[<-|[<-|[]]]]; reflexivity|exact E|].
  exists exs, rows. auto.
Qed.
