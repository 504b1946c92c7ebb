(** Facts about the nearest neighbours and the continuous estimators of Entropy.v. *)
From Verif Require Import Prob.
From Verif Require Export EntropyFacts.
Local Open Scope R_scope.

(* ------------------------------------------------------------------ *)
(** ** Sorting *)

Lemma rinsert_perm a l : Permutation (rinsert a l) (a :: l).
Proof.
  induction l as [|b l IH]; cbn [rinsert]; [apply Permutation_refl|]. destruct (Rleb a b); [apply Permutation_refl|].
  rewrite IH. apply perm_swap.
Qed.
Lemma rsort_perm l : Permutation (rsort l) l.
Proof.
  induction l as [|a l IH]; [apply Permutation_refl|]. unfold rsort in *. cbn [fold_right].
  rewrite rinsert_perm. apply perm_skip, IH.
Qed.
Lemma rinsert_sorted a l : StronglySorted Rle l -> StronglySorted Rle (rinsert a l).
Proof.
  induction l as [|b l IH]; intros H; cbn [rinsert]; [repeat constructor|].
  inversion H as [|c d H1 H2]; subst. destruct (Rleb a b) eqn:E.
  - apply Rleb_true in E. constructor; [exact H|]. constructor; [exact E|].
    eapply Forall_impl; [|exact H2]. cbv beta. intros x Hx. lra.
  - constructor; [apply IH, H1|]. assert (Hba : b <= a).
    { destruct (Rle_dec b a) as [|N]; [assumption|]. assert (E2 : a <= b) by lra. apply Rleb_true in E2. congruence. }
    apply Forall_forall. intros x Hx. apply (Permutation_in _ (rinsert_perm a l)) in Hx.
    destruct Hx as [<-|Hx]; [exact Hba|]. apply (proj1 (Forall_forall _ _) H2 x Hx).
Qed.
Lemma rsort_sorted l : StronglySorted Rle (rsort l).
Proof. induction l as [|a l IH]; [constructor|]. apply rinsert_sorted, IH. Qed.
Lemma rsort_length l : length (rsort l) = length l.
Proof. apply Permutation_length, rsort_perm. Qed.

Lemma filter_perm {A} (f : A -> bool) l l' : Permutation l l' -> length (filter f l) = length (filter f l').
Proof.
  induction 1 as [|a l l' _ IH|a b l|l1 l2 l3 _ IH1 _ IH2]; cbn; [reflexivity| | |congruence].
  - destruct (f a); cbn; congruence.
  - destruct (f a), (f b); reflexivity.
Qed.

(** Members below and up to a bound in a sorted list. *)
Lemma sorted_rank l j d : StronglySorted Rle l -> nth_error l j = Some d ->
  (length (filter (fun x => Rltb x d) l) <= j)%nat /\ (j < length (filter (fun x => Rleb x d) l))%nat.
Proof.
  intros Hs. revert j d. induction Hs as [|a l Hs IH Ha]; intros [|j] d Hj; try discriminate; cbn in Hj.
  - injection Hj as ->. cbn [filter]. assert (E1 : Rltb d d = false).
    { destruct (Rltb d d) eqn:E; [apply Rltb_true in E; lra|reflexivity]. }
    assert (E2 : Rleb d d = true) by (apply Rleb_true; lra). rewrite E1, E2. cbn [length]. split; [|lia].
    assert (E3 : filter (fun x => Rltb x d) l = []).
    { clear -Ha. induction l as [|b l IH]; [reflexivity|].
      inversion Ha as [|x y H1 H2]; subst. cbn [filter]. destruct (Rltb b d) eqn:E; [apply Rltb_true in E; lra|]. apply IH, H2. }
    rewrite E3. cbn. lia.
  - destruct (IH j d Hj) as [H1 H2]. cbn [filter]. apply nth_error_In in Hj.
    pose proof (proj1 (Forall_forall _ _) Ha d Hj) as Had. rewrite (proj2 (Rleb_true a d) Had). cbn [length].
    destruct (Rltb a d); cbn [length]; lia.
Qed.

(* ------------------------------------------------------------------ *)
(** ** Rank of a distance *)

(** [d] is the distance from [p] to the point of [x] with [j] points closer to [p]. *)
Definition ranked (x : list (list R)) (p : list R) (j : nat) (d : R) : Prop :=
  (length (filter (fun q => Rltb (dist_inf p q) d) x) <= j)%nat /\
  (j < length (filter (fun q => Rleb (dist_inf p q) d) x))%nat.

Lemma filter_map_length {A B} (f : B -> bool) (g : A -> B) l :
  length (filter f (map g l)) = length (filter (fun a => f (g a)) l).
Proof. induction l as [|a l IH]; [reflexivity|]. cbn. destruct (f (g a)); cbn; rewrite IH; reflexivity. Qed.

Lemma rsort_ranked x p j d : nth_error (rsort (map (dist_inf p) x)) j = Some d -> ranked x p j d.
Proof.
  intros H. destruct (sorted_rank _ j d (rsort_sorted _) H) as [H1 H2].
  rewrite (filter_perm _ _ _ (rsort_perm _)), filter_map_length in H1.
  rewrite (filter_perm _ _ _ (rsort_perm _)), filter_map_length in H2. split; assumption.
Qed.
Lemma filter_incl_length {A} (f g : A -> bool) l : (forall a, In a l -> f a = true -> g a = true) ->
  (length (filter f l) <= length (filter g l))%nat.
Proof.
  induction l as [|a l IH]; intros H; [apply Nat.le_refl|]. cbn.
  assert (IH' := IH (fun b Hb => H b (or_intror Hb))). pose proof (H a (or_introl eq_refl)) as Ha.
  destruct (f a); [rewrite (Ha eq_refl); cbn; lia|]. destruct (g a); cbn; lia.
Qed.
Lemma ranked_unique x p j d d' : ranked x p j d -> ranked x p j d' -> d = d'.
Proof.
  assert (H : forall d d', d < d' -> ranked x p j d -> ranked x p j d' -> False).
  { intros e e' L [_ H1] [H2 _]. pose proof (filter_incl_length (fun q => Rleb (dist_inf p q) e) (fun q => Rltb (dist_inf p q) e') x) as H3.
    assert (H4 : forall q, In q x -> Rleb (dist_inf p q) e = true -> Rltb (dist_inf p q) e' = true).
    { intros q _ Hq. apply Rleb_true in Hq. apply Rltb_true. lra. }
    specialize (H3 H4). lia. }
  intros H1 H2. destruct (Rtotal_order d d') as [L|[E|L]]; [destruct (H _ _ L H1 H2)|exact E|destruct (H _ _ L H2 H1)].
Qed.

(** A query within range answers the ranked distance. *)
Lemma query_ok x p k j d : k <> 1%nat -> (j < k)%nat -> ranked x p j d -> query x p k j = Ok (Fin d).
Proof.
  intros Hk Hj Hr. unfold query. rewrite (proj2 (Nat.eqb_neq k 1) Hk), (proj2 (Nat.ltb_lt j k) Hj).
  destruct (nth_error (rsort (map (dist_inf p) x)) j) as [e|] eqn:E.
  - rewrite (ranked_unique x p j d e Hr (rsort_ranked x p j e E)). reflexivity.
  - apply nth_error_None in E. rewrite rsort_length, map_length in E. destruct Hr as [_ H].
    assert (H3 : forall f : list R -> bool, (length (filter f x) <= length x)%nat).
    { clear. intros f. induction x as [|a x IH]; [apply Nat.le_refl|]. cbn. destruct (f a); cbn; lia. }
    specialize (H3 (fun q => Rleb (dist_inf p q) d)). lia.
Qed.
(** There is always one within the number of points. *)
Lemma ranked_ex x p j : (j < length x)%nat -> exists d, ranked x p j d /\ In d (map (dist_inf p) x).
Proof.
  intros H. destruct (nth_error (rsort (map (dist_inf p) x)) j) as [d|] eqn:E.
  - exists d. split; [apply rsort_ranked, E|]. apply nth_error_In in E. apply (Permutation_in _ (rsort_perm _) E).
  - apply nth_error_None in E. rewrite rsort_length, map_length in E. lia.
Qed.

(* ------------------------------------------------------------------ *)
(** ** The distance *)

Lemma dist_nonneg p q : 0 <= dist_inf p q.
Proof.
  revert q. induction p as [|a p IH]; intros [|b q]; cbn [dist_inf]; try lra.
  apply Rle_trans with (dist_inf p q); [apply IH|apply Rmax_r].
Qed.
Lemma dist_sym p q : dist_inf p q = dist_inf q p.
Proof.
  revert q. induction p as [|a p IH]; intros [|b q]; cbn [dist_inf]; try reflexivity. rewrite IH, Rabs_minus_sym. reflexivity.
Qed.
Lemma dist_app p q p' q' : length p = length p' ->
  dist_inf (p ++ q) (p' ++ q') = Rmax (dist_inf p p') (dist_inf q q').
Proof.
  revert p'. induction p as [|a p IH]; intros [|b p'] H; try discriminate; cbn [dist_inf app].
  - rewrite Rmax_right; [reflexivity|apply dist_nonneg].
  - injection H as H. rewrite (IH p' H), Rmax_assoc. reflexivity.
Qed.

(* ------------------------------------------------------------------ *)
(** ** Divergence *)

Lemma rsequence_f2 {A B C} (P : A -> B -> Prop) (f : A -> res C) (g : B -> C) l r :
  Forall2 P l r -> (forall a b, P a b -> f a = Ok (g b)) -> rsequence (map f l) = Ok (map g r).
Proof.
  intros H Hf. induction H as [|a b l r Hab H IH]; [reflexivity|]. cbn [map rsequence]. rewrite (Hf a b Hab), IH. reflexivity.
Qed.
Lemma mean_log_ok l : Forall (fun d => 0 < d) l -> l <> [] ->
  mean_log (map Fin l) = Ok (Fin (Rsum (map ln l) / INR (length l))).
Proof.
  intros H Hne. unfold mean_log. rewrite map_length.
  assert (E : rsequence (map elog (map Fin l)) = Ok (map Fin (map ln l))).
  { clear Hne. induction H as [|a l Ha H IH]; [reflexivity|]. cbn [map rsequence elog].
    rewrite (proj2 (Rltb_true 0 a) Ha). cbn [rbind]. rewrite IH. reflexivity. }
  rewrite E. cbn [rbind]. rewrite LogSpaceFacts.esum_fin. cbn [ediv].
  destruct (Reqb (INR (length l)) 0) eqn:E0; [|reflexivity]. apply Reqb_true in E0. apply (INR_eq _ 0) in E0.
  destruct l; [congruence|discriminate].
Qed.
Lemma mean_log_zero l : Exists (fun d => d <= 0) l -> mean_log (map Fin l) = Err ValueError.
Proof.
  intros H. unfold mean_log. assert (E : rsequence (map elog (map Fin l)) = Err ValueError); [|rewrite E; reflexivity].
  induction l as [|a l IH]; [inversion H|]. cbn [map rsequence elog]. destruct (Rltb 0 a) eqn:E; cbn [rbind]; [|reflexivity].
  apply Rltb_true in E. inversion H as [b m H1|b m H1]; subst; [lra|]. rewrite (IH H1). reflexivity.
Qed.

Lemma f2_length {A B} (P : A -> B -> Prop) l r : Forall2 P l r -> length l = length r.
Proof. induction 1; cbn; congruence. Qed.

Section Kldiv.
  Variables (x xp : list (list R)) (k d : nat) (r s : list R).
  Hypotheses (Hk : (2 <= k)%nat) (Hn : (k < length x)%nat) (Hm : (k < length xp)%nat).
  Hypotheses (Wx : width x = Ok d) (Wp : width xp = Ok d).
  Hypotheses (Hr : Forall2 (fun p e => ranked x p k e) x r) (Hs : Forall2 (fun p e => ranked xp p (k - 1) e) x s).

  Lemma kldiv_steps base : kldiv x xp k base =
    rbind (mean_log (map Fin s)) (fun mp => rbind (mean_log (map Fin r)) (fun m =>
      np_per_base (esub (eadd (Fin (ln (INR (length xp)) - ln (INR (length x) - 1))) (emul_nat d mp)) (emul_nat d m)) base)).
  Proof using Hk Hn Hm Wx Wp Hr Hs.
    unfold kldiv. rewrite (proj2 (Z.leb_le _ _)) by lia. rewrite (proj2 (Z.leb_le _ _)) by lia. cbn [negb].
    rewrite Wx, Wp. cbn [rbind]. rewrite Nat.eqb_refl. cbn [negb].
    unfold plog. pose proof (lt_INR _ _ Hn) as H1. pose proof (lt_INR _ _ Hm) as H2. pose proof (le_INR _ _ Hk) as H3.
    cbn in H3. rewrite (proj2 (Rltb_true 0 _)) by lra. rewrite (proj2 (Rltb_true 0 _)) by lra. cbn [rbind].
    rewrite (rsequence_f2 _ (fun p => query x p (k + 1) k) Fin x r Hr) by (intros p e He; apply query_ok; [lia|lia|exact He]).
    rewrite (rsequence_f2 _ (fun p => query xp p k (k - 1)) Fin x s Hs) by (intros p e He; apply query_ok; [lia|lia|exact He]).
    reflexivity.
  Qed.
  Lemma lengths : length r = length x /\ length s = length x.
  Proof using Hr Hs. split; symmetry; [eapply f2_length; exact Hr|eapply f2_length; exact Hs]. Qed.

  Lemma kldiv_value base : Forall (fun e => 0 < e) r -> Forall (fun e => 0 < e) s -> kldiv x xp k base =
    np_per_base (Fin (ln (INR (length xp)) - ln (INR (length x) - 1) +
      INR d * (Rsum (map ln s) / INR (length x)) - INR d * (Rsum (map ln r) / INR (length x)))) base.
  Proof using Hk Hn Hm Wx Wp Hr Hs.
    intros P1 P2. destruct lengths as [L1 L2]. rewrite kldiv_steps, (mean_log_ok s P2), (mean_log_ok r P1).
    - rewrite L1, L2. cbn [rbind emul_nat eadd esub eopp]. f_equal.
    - intros ->. cbn in L1. lia.
    - intros ->. cbn in L2. lia.
  Qed.
  Lemma kldiv_zero base : Exists (fun e => e <= 0) r \/ Exists (fun e => e <= 0) s -> kldiv x xp k base = Err ValueError.
  Proof using Hk Hn Hm Wx Wp Hr Hs.
    intros H. destruct lengths as [L1 L2]. rewrite kldiv_steps.
    destruct (Forall_Exists_dec (fun e => 0 < e) (fun e => Rlt_dec 0 e) s) as [P|P].
    - rewrite (mean_log_ok s P); [|intros ->; cbn in L2; lia]. cbn [rbind]. rewrite mean_log_zero; [reflexivity|].
      destruct H as [H|H]; [exact H|]. exfalso. apply Exists_exists in H. destruct H as [e [H1 H2]].
      pose proof (proj1 (Forall_forall _ _) P e H1) as H3. cbv beta in H3. lra.
    - rewrite (mean_log_zero s); [reflexivity|]. eapply Exists_impl; [|exact P]. cbv beta. intros e He. lra.
  Qed.
End Kldiv.

(* ------------------------------------------------------------------ *)
(** ** Maps that multiply distances *)

Lemma ranked_scaled (F : list R -> list R) c x p j d : 0 < c -> (forall q, In q x -> dist_inf (F p) (F q) = c * dist_inf p q) ->
  ranked x p j d -> ranked (map F x) (F p) j (c * d).
Proof.
  intros Hc HF [H1 H2]. unfold ranked. rewrite !filter_map_length.
  assert (E1 : filter (fun q => Rltb (dist_inf (F p) (F q)) (c * d)) x = filter (fun q => Rltb (dist_inf p q) d) x).
  { apply filter_ext_in. intros q Hq. rewrite (HF q Hq). apply eq_iff_eq_true. rewrite !Rltb_true. split; intros H.
    - apply Rmult_lt_reg_l with c; assumption.
    - apply Rmult_lt_compat_l; assumption. }
  assert (E2 : filter (fun q => Rleb (dist_inf (F p) (F q)) (c * d)) x = filter (fun q => Rleb (dist_inf p q) d) x).
  { apply filter_ext_in. intros q Hq. rewrite (HF q Hq). apply eq_iff_eq_true. rewrite !Rleb_true. split; intros H.
    - apply Rmult_le_reg_l with c; assumption.
    - apply Rmult_le_compat_l; lra. }
  rewrite E1, E2. split; assumption.
Qed.

(** [c * p + t]. *)
Fixpoint affine (c : R) (t p : list R) {struct p} : list R :=
  match p, t with
  | a :: p', b :: t' => (c * a + b) :: affine c t' p'
  | _, _ => map (Rmult c) p
  end.
Lemma dist_affine c t p q : dist_inf (affine c t p) (affine c t q) = Rabs c * dist_inf p q.
Proof.
  assert (H0 : forall p q, dist_inf (map (Rmult c) p) (map (Rmult c) q) = Rabs c * dist_inf p q).
  { clear. induction p as [|a p IH]; intros [|b q]; cbn [map dist_inf]; try ring.
    rewrite IH, <- RmaxRmult by apply Rabs_pos. f_equal. rewrite <- Rabs_mult. f_equal. ring. }
  revert t q. induction p as [|a p IH]; intros t q; [cbn [affine map dist_inf]; ring|]. destruct q as [|b q].
  { destruct t; cbn [affine map dist_inf]; ring. }
  destruct t as [|e t]; [apply (H0 (a :: p) (b :: q))|]. cbn [affine dist_inf].
  rewrite IH, <- RmaxRmult by apply Rabs_pos. f_equal. rewrite <- Rabs_mult. f_equal. ring.
Qed.
Lemma affine_length c t p : length (affine c t p) = length p.
Proof. revert t. induction p as [|a p IH]; intros [|b t]; cbn; rewrite ?map_length; auto. Qed.
Lemma affine_one t p : affine 1 t p = match p, t with a :: p', b :: t' => (a + b) :: affine 1 t' p' | _, _ => p end.
Proof.
  destruct p as [|a p], t as [|b t]; try reflexivity; cbn [affine].
  - rewrite (map_ext _ (fun x => x)) by (intros; ring). rewrite map_id. reflexivity.
  - rewrite Rmult_1_l. reflexivity.
Qed.

(* ------------------------------------------------------------------ *)
(** ** Two views of the same points *)

Section Iso.
  Context {S : Type} (f g : S -> list R) (L : list S).
  Hypothesis Hd : forall s s', In s L -> In s' L -> dist_inf (f s) (f s') = dist_inf (g s) (g s').

  Lemma query_iso k j : map (fun p => query (map f L) p k j) (map f L) = map (fun p => query (map g L) p k j) (map g L).
  Proof using Hd.
    rewrite !map_map. apply map_ext_in. intros s Hs. unfold query. rewrite !map_map.
    rewrite (map_ext_in (fun s' => dist_inf (f s) (f s')) (fun s' => dist_inf (g s) (g s'))); [reflexivity|].
    intros s' Hs'. apply Hd; assumption.
  Qed.
  Lemma avg_iso psi dvec : avgdigamma psi (map f L) dvec = avgdigamma psi (map g L) dvec.
  Proof using Hd.
    unfold avgdigamma. rewrite !map_length. destruct (length dvec <? length L)%nat; [reflexivity|]. f_equal.
    assert (H : forall M dv acc, incl M L ->
      fold_left (fun avg pd => eadd avg (ediv (psi (length (filter (fun q => within (dist_inf (fst pd) q) (snd pd)) (map f L))))
        (Fin (INR (length L))))) (combine (map f M) dv) acc =
      fold_left (fun avg pd => eadd avg (ediv (psi (length (filter (fun q => within (dist_inf (fst pd) q) (snd pd)) (map g L))))
        (Fin (INR (length L))))) (combine (map g M) dv) acc).
    { induction M as [|s M IH]; intros dv acc HM; [reflexivity|]. destruct dv as [|e dv]; [reflexivity|].
      cbn [map combine fold_left fst snd]. rewrite IH by (intros a Ha; apply HM; right; exact Ha). f_equal. f_equal. f_equal. f_equal.
      rewrite !filter_map_length. f_equal. apply filter_ext_in. intros s' Hs'. rewrite (Hd s s'); [reflexivity| |exact Hs'].
      apply HM. left. reflexivity. }
    apply H. intros a Ha. exact Ha.
  Qed.
End Iso.

Lemma jitter_length u x : length (jitter u x) = length x.
Proof. unfold jitter. rewrite map_length, combine_length, seq_length. apply Nat.min_id. Qed.
Lemma jitter_rect u x n : Forall (fun p => length p = n) x -> Forall (fun p => length p = n) (jitter u x).
Proof.
  intros H. unfold jitter. apply Forall_forall. intros q Hq. apply in_map_iff in Hq. destruct Hq as [[i p] [<- Hin]].
  apply in_combine_r in Hin. cbn [snd]. rewrite map_length, combine_length, seq_length, Nat.min_id.
  apply (proj1 (Forall_forall _ _) H p Hin).
Qed.
Lemma jitter_from_affine (u : nat -> nat -> R) i t : forall p m,
  map (fun ja => snd ja + / 10 ^ 10 * u i (fst ja)) (combine (seq m (length (affine 1 t p))) (affine 1 t p)) =
  affine 1 t (map (fun ja => snd ja + / 10 ^ 10 * u i (fst ja)) (combine (seq m (length p)) p)).
Proof.
  intros p. revert t. induction p as [|a p IH]; intros t m; [destruct t; reflexivity|].
  rewrite (affine_one t (a :: p)). destruct t as [|b t].
  - rewrite affine_one. destruct (map _ _); reflexivity.
  - cbn [length seq combine map fst snd]. rewrite (IH t (S m)), (affine_one (b :: t)). f_equal. ring.
Qed.
Lemma jitter_affine u t x : jitter u (map (affine 1 t) x) = map (affine 1 t) (jitter u x).
Proof.
  unfold jitter. rewrite map_length.
  set (J := fun ip : nat * list R => map (fun ja => snd ja + / 10 ^ 10 * u (fst ip) (fst ja))
    (combine (seq 0 (length (snd ip))) (snd ip))).
  assert (H : forall m, map J (combine (seq m (length x)) (map (affine 1 t) x)) = map (affine 1 t) (map J (combine (seq m (length x)) x))).
  { induction x as [|p x IH]; intros m; [reflexivity|]. cbn [length seq combine map]. f_equal; [|apply (IH (S m))].
    unfold J. cbn [fst snd]. apply jitter_from_affine. }
  apply H.
Qed.
Lemma combine_map_l {A B C} (f : A -> C) (x : list A) (y : list B) :
  combine (map f x) y = map (fun p => (f (fst p), snd p)) (combine x y).
Proof. revert y. induction x as [|a x IH]; intros [|b y]; cbn; try reflexivity. rewrite IH. reflexivity. Qed.
