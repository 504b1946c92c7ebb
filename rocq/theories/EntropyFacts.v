(** Facts about the discrete estimators of Entropy.v. *)
From Verif Require Import Prob.
From Verif Require Export Entropy.
Local Open Scope R_scope.

Definition reflects {A} (eqb : A -> A -> bool) : Prop := forall a b, eqb a b = true <-> a = b.

Lemma reflects_pair {A B} (ea : A -> A -> bool) (eb : B -> B -> bool) :
  reflects ea -> reflects eb -> reflects (pair_eqb ea eb).
Proof.
  intros Ha Hb [a b] [a' b']. unfold pair_eqb. cbn [fst snd]. rewrite andb_true_iff, (Ha a a'), (Hb b b').
  split; [intros [-> ->]; reflexivity|intros H; injection H; auto].
Qed.
Lemma reflects_refl {A} (eqb : A -> A -> bool) a : reflects eqb -> eqb a a = true.
Proof. intros H. apply H. reflexivity. Qed.

(** Number of members that satisfy a test, as a real number. *)
Definition num {A} (f : A -> bool) (l : list A) : R := Rsum (map (fun a => if f a then 1 else 0) l).

Lemma num_INR {A} (f : A -> bool) l : num f l = INR (length (filter f l)).
Proof.
  induction l as [|a l IH]; [reflexivity|]. unfold num in *. simpl. rewrite IH.
  destruct (f a); [|lra]. change (length (a :: filter f l)) with (S (length (filter f l))). rewrite S_INR. lra.
Qed.
Lemma num_nonneg {A} (f : A -> bool) l : 0 <= num f l.
Proof. rewrite num_INR. apply pos_INR. Qed.
Lemma num_pos {A} (f : A -> bool) l a : In a l -> f a = true -> 1 <= num f l.
Proof.
  intros H1 H2. rewrite num_INR. assert (H : In a (filter f l)) by (apply filter_In; auto).
  destruct (filter f l) as [|b l']; [destruct H|]. change (length (b :: l')) with (S (length l')). rewrite S_INR.
  pose proof (pos_INR (length l')). lra.
Qed.
Lemma num_le {A} (f : A -> bool) l : num f l <= INR (length l).
Proof.
  rewrite num_INR. apply le_INR. induction l as [|a l IH]; simpl; [lia|]. destruct (f a); simpl; lia.
Qed.
Lemma num_map {A B} (g : A -> B) (f : B -> bool) l : num f (map g l) = num (fun a => f (g a)) l.
Proof. unfold num. rewrite map_map. reflexivity. Qed.
Lemma num_ext {A} (f g : A -> bool) l : (forall a, In a l -> f a = g a) -> num f l = num g l.
Proof. intros H. unfold num. apply Rsum_ext. intros a Ha. rewrite (H a Ha). reflexivity. Qed.
Lemma num_true {A} (f : A -> bool) l : (forall a, In a l -> f a = true) -> num f l = INR (length l).
Proof.
  intros H. rewrite num_INR. f_equal. f_equal. induction l as [|a l IH]; [reflexivity|]. simpl.
  rewrite (H a) by (left; reflexivity). f_equal. apply IH. intros b Hb. apply H. right. exact Hb.
Qed.
Lemma num_all {A} (f : A -> bool) l : num f l = INR (length l) -> forall a, In a l -> f a = true.
Proof.
  rewrite num_INR. intros H. apply INR_eq in H. revert H.
  induction l as [|b l IH]; simpl; [intros _ a []|].
  assert (Hle : (length (filter f l) <= length l)%nat).
  { clear. induction l as [|c l IH]; simpl; [lia|]. destruct (f c); simpl; lia. }
  destruct (f b) eqn:E; simpl; intros H; [|lia].
  intros a [->|Ha]; [exact E|]. apply IH; [lia|exact Ha].
Qed.

(* ------------------------------------------------------------------ *)
(** ** The dictionary of counts *)

Section Tally.
  Context {A : Type} (eqb : A -> A -> bool).
  Hypothesis Heq : reflects eqb.

  (** The sum of [n * g k] over the entries. *)
  Definition wsum (g : A -> R) (d : list (A * nat)) : R :=
    Rsum (map (fun kn => INR (snd kn) * g (fst kn)) d).

  Lemma wsum_bump g s d : wsum g (bump eqb s d) = wsum g d + g s.
  Proof using Heq.
    unfold wsum. induction d as [|[k n] d IH]; [simpl; lra|]. cbn [bump].
    destruct (eqb s k) eqn:E.
    - apply Heq in E. subst k. cbn [map fst snd]. rewrite S_INR. simpl. ring.
    - cbn [map fst snd]. simpl. rewrite IH. ring.
  Qed.
  Lemma wsum_tally g l : wsum g (tally eqb l) = Rsum (map g l).
  Proof using Heq.
    unfold tally. assert (H : forall d, wsum g (fold_left (fun d s => bump eqb s d) l d) = wsum g d + Rsum (map g l)).
    { induction l as [|a l IH]; intros d; cbn [fold_left]; [simpl; ring|].
      rewrite IH, wsum_bump. simpl. ring. }
    rewrite H. unfold wsum. simpl. ring.
  Qed.

  Lemma bump_pos s d : Forall (fun kn => (0 < snd kn)%nat) d ->
    Forall (fun kn => (0 < snd kn)%nat) (bump eqb s d).
  Proof using.
    induction d as [|[k n] d IH]; intros H; cbn [bump].
    - repeat constructor.
    - inversion H as [|x y H1 H2]; subst. destruct (eqb s k); constructor; cbn [snd]; auto; lia.
  Qed.
  Lemma bump_keys s d a : In a (map fst (bump eqb s d)) <-> a = s \/ In a (map fst d).
  Proof using Heq.
    induction d as [|[k n] d IH]; cbn [bump]; [simpl; intuition|].
    destruct (eqb s k) eqn:E.
    - apply Heq in E. subst k. simpl. intuition.
    - simpl. rewrite IH. intuition.
  Qed.
  Lemma bump_NoDup s d : NoDup (map fst d) -> NoDup (map fst (bump eqb s d)).
  Proof using Heq.
    induction d as [|[k n] d IH]; intros H; cbn [bump].
    - constructor; [intros []|constructor].
    - inversion H as [|x y H1 H2]; subst. destruct (eqb s k) eqn:E.
      + constructor; assumption.
      + simpl. constructor; [|apply IH; assumption]. rewrite bump_keys. intros [->|Hin]; [|contradiction].
        rewrite (reflects_refl eqb s Heq) in E. discriminate.
  Qed.
  Lemma tally_pos l : Forall (fun kn => (0 < snd kn)%nat) (tally eqb l).
  Proof using.
    unfold tally. assert (H : forall d, Forall (fun kn => (0 < snd kn)%nat) d ->
      Forall (fun kn => (0 < snd kn)%nat) (fold_left (fun d s => bump eqb s d) l d)).
    { induction l as [|a l IH]; intros d Hd; cbn [fold_left]; [exact Hd|]. apply IH, bump_pos, Hd. }
    apply H. constructor.
  Qed.
  Lemma tally_NoDup l : NoDup (map fst (tally eqb l)).
  Proof using Heq.
    unfold tally. assert (H : forall d, NoDup (map fst d) ->
      NoDup (map fst (fold_left (fun d s => bump eqb s d) l d))).
    { induction l as [|a l IH]; intros d Hd; cbn [fold_left]; [exact Hd|]. apply IH, bump_NoDup, Hd. }
    apply H. constructor.
  Qed.

  (** An entry counts the occurrences of its key. *)
  Lemma tally_count l k n : In (k, n) (tally eqb l) -> INR n = num (eqb k) l.
  Proof using Heq.
    intros Hin. pose proof (wsum_tally (fun a => if eqb k a then 1 else 0) l) as H.
    unfold num. rewrite <- H. clear H. unfold wsum. pose proof (tally_NoDup l) as Hnd.
    induction (tally eqb l) as [|[k' n'] d IH]; [destruct Hin|].
    simpl in Hnd |- *. inversion Hnd as [|x y H1 H2]; subst. destruct Hin as [E|Hin].
    - injection E as -> ->. rewrite (reflects_refl eqb k Heq).
      replace (Rsum _) with 0; [lra|]. symmetry. apply Rsum_zero. intros [k2 n2] Hk. cbn [fst snd].
      destruct (eqb k k2) eqn:E; [|ring]. apply Heq in E. subst k2. destruct H1.
      apply in_map_iff. exists (k, n2). auto.
    - rewrite (IH Hin H2). clear IH. destruct (eqb k k') eqn:E; [|simpl; ring].
      apply Heq in E. subst k'. destruct H1. apply in_map_iff. exists (k, n). auto.
  Qed.
End Tally.

(* ------------------------------------------------------------------ *)
(** ** The entropy of a sample *)

(** The average of [- ln] of the relative frequency of the members. *)
Definition freq {A} (eqb : A -> A -> bool) (l : list A) (a : A) : R := num (eqb a) l / INR (length l).
Definition surprise {A} (eqb : A -> A -> bool) (l : list A) : R :=
  Rsum (map (fun a => - ln (freq eqb l a)) l) / INR (length l).

Lemma ent_log_freq x : 0 < x <= 1 -> ent_log x = x * ln x.
Proof.
  intros [H1 H2]. unfold ent_log. destruct (Rleb x 0) eqn:E1; [apply Rleb_true in E1; lra|].
  destruct (Rleb 1 x) eqn:E2; [|reflexivity]. apply Rleb_true in E2. assert (x = 1) by lra. subst x.
  rewrite ln_1. simpl. ring.
Qed.

Lemma hist_surprise {A} (eqb : A -> A -> bool) l : reflects eqb ->
  - Rsum (map ent_log (hist eqb l)) = surprise eqb l.
Proof.
  intros Heq. unfold hist, surprise. rewrite map_map.
  destruct l as [|a0 l0] eqn:El.
  { simpl. unfold Rdiv. ring. }
  rewrite <- El. assert (Hn : 0 < INR (length l)).
  { apply lt_0_INR. subst l. simpl. lia. }
  rewrite (Rsum_ext _ (fun kn => / INR (length l) * (INR (snd kn) * ln (freq eqb l (fst kn))))).
  - rewrite Rsum_scal. fold (wsum (fun a => ln (freq eqb l a)) (tally eqb l)). rewrite (wsum_tally eqb Heq).
    rewrite (Rsum_ext (fun a => - ln (freq eqb l a)) (fun a => -1 * ln (freq eqb l a))) by (intros; ring).
    rewrite Rsum_scal. unfold Rdiv. ring.
  - intros [k n] Hin. cbn [fst snd]. unfold freq.
    rewrite <- (tally_count eqb Heq l k n Hin).
    pose proof (proj1 (Forall_forall _ _) (tally_pos eqb l) _ Hin) as Hp. cbn [snd] in Hp.
    apply lt_0_INR in Hp.
    assert (Hle : INR n <= INR (length l)) by (rewrite (tally_count eqb Heq l k n Hin); apply num_le).
    rewrite ent_log_freq; [unfold Rdiv; ring|]. split.
    + apply Rdiv_lt_0_compat; assumption.
    + apply Rmult_le_reg_r with (INR (length l)); [assumption|]. unfold Rdiv. rewrite Rmult_assoc, Rinv_l by lra. lra.
Qed.

Lemma per_base_ok x base : 0 < base -> base <> 1 -> per_base x base = Ok (x / ln base).
Proof.
  intros H1 H2. unfold per_base, plog. rewrite (proj2 (Rltb_true 0 base) H1). cbn [rbind].
  destruct (Reqb (ln base) 0) eqn:E; [|reflexivity]. apply Reqb_true in E. destruct H2.
  rewrite <- ln_1 in E. apply ln_inv; lra.
Qed.
Lemma per_base_err x base : per_base x base =
  if Rltb 0 base then (if Reqb base 1 then Err ZeroDivisionError else Ok (x / ln base)) else Err ValueError.
Proof.
  destruct (Rltb 0 base) eqn:E; [apply Rltb_true in E|unfold per_base, plog; rewrite E; reflexivity].
  destruct (Reqb base 1) eqn:E1.
  - apply Reqb_true in E1. subst base. unfold per_base, plog. rewrite (proj2 (Rltb_true 0 1) E). cbn [rbind].
    rewrite ln_1. unfold Reqb. destruct (Req_EM_T 0 0); [reflexivity|lra].
  - apply per_base_ok; [exact E|]. intros ->. unfold Reqb in E1. destruct (Req_EM_T 1 1); [discriminate|lra].
Qed.

(* ------------------------------------------------------------------ *)
(** ** Sums *)

Lemma Rsum_swap {A B} (f : A -> B -> R) la lb :
  Rsum (map (fun a => Rsum (map (f a) lb)) la) = Rsum (map (fun b => Rsum (map (fun a => f a b) la)) lb).
Proof.
  induction la as [|a la IH]; simpl.
  - symmetry. apply Rsum_zero. reflexivity.
  - rewrite IH. symmetry. apply (Rsum_plus (f a) (fun b => Rsum (map (fun a => f a b) la))).
Qed.
Lemma Rsum_mono {A} (f g : A -> R) l : (forall a, In a l -> f a <= g a) -> Rsum (map f l) <= Rsum (map g l).
Proof.
  induction l as [|a l IH]; intros H; simpl; [lra|]. pose proof (H a (or_introl eq_refl)).
  assert (Rsum (map f l) <= Rsum (map g l)) by (apply IH; intros b Hb; apply H; right; exact Hb). lra.
Qed.
Lemma Rsum_mono_eq {A} (f g : A -> R) l : (forall a, In a l -> f a <= g a) ->
  Rsum (map f l) = Rsum (map g l) -> forall a, In a l -> f a = g a.
Proof.
  induction l as [|a l IH]; simpl; intros H E b Hb; [destruct Hb|].
  assert (H0 := H a (or_introl eq_refl)).
  assert (H1 : Rsum (map f l) <= Rsum (map g l)) by (apply Rsum_mono; intros c Hc; apply H; right; exact Hc).
  destruct Hb as [<-|Hb]; [lra|]. apply IH; [intros c Hc; apply H; right; exact Hc|lra|exact Hb].
Qed.
Lemma Rsum_ones {A} (l : list A) : Rsum (map (fun _ => 1) l) = INR (length l).
Proof.
  induction l as [|a l IH]; [reflexivity|]. cbn [map length]. rewrite S_INR. simpl. rewrite IH. ring.
Qed.

Lemma ln_le_pred x : 0 < x -> ln x <= x - 1.
Proof. intros H. pose proof (exp_ineq1_le (x - 1)) as E. rewrite <- (ln_exp (x - 1)).
  destruct (Rle_lt_or_eq_dec x (exp (x - 1))) as [L|L]; [lra|left; apply ln_increasing; assumption|].
  rewrite <- L. lra.
Qed.
Lemma ln_eq_pred x : 0 < x -> ln x = x - 1 -> x = 1.
Proof.
  intros H E. destruct (Req_dec x 1) as [|Hn]; [assumption|].
  assert (Hx : x - 1 <> 0) by lra. pose proof (exp_ineq1 (x - 1) Hx) as H2.
  rewrite <- E, exp_ln in H2 by exact H. lra.
Qed.

(* ------------------------------------------------------------------ *)
(** ** Conditional mutual information of a list of triples *)

Definition ind (b : bool) : R := if b then 1 else 0.

Section Triples.
  Context {A B C : Type} (ea : A -> A -> bool) (eb : B -> B -> bool) (ec : C -> C -> bool).
  Hypotheses (Ha : reflects ea) (Hb : reflects eb) (Hc : reflects ec).
  Variable T : list (A * (B * C)).

  Definition c_z (c : C) : R := num (fun s => ec c (snd (snd s))) T.
  Definition c_xz (a : A) (c : C) : R := num (fun s => ea a (fst s) && ec c (snd (snd s))) T.
  Definition c_yz (b : B) (c : C) : R := num (fun s => eb b (fst (snd s)) && ec c (snd (snd s))) T.
  Definition c_xyz (a : A) (b : B) (c : C) : R :=
    num (fun s => ea a (fst s) && (eb b (fst (snd s)) && ec c (snd (snd s)))) T.

  Definition ratio (t : A * (B * C)) : R :=
    c_xz (fst t) (snd (snd t)) * c_yz (fst (snd t)) (snd (snd t)) /
    (c_xyz (fst t) (fst (snd t)) (snd (snd t)) * c_z (snd (snd t))).

  Lemma counts_pos t : In t T ->
    1 <= c_z (snd (snd t)) /\ 1 <= c_xz (fst t) (snd (snd t)) /\
    1 <= c_yz (fst (snd t)) (snd (snd t)) /\ 1 <= c_xyz (fst t) (fst (snd t)) (snd (snd t)).
  Proof using Ha Hb Hc.
    intros Hin. unfold c_z, c_xz, c_yz, c_xyz.
    pose proof (reflects_refl ea (fst t) Ha) as E1. pose proof (reflects_refl eb (fst (snd t)) Hb) as E2.
    pose proof (reflects_refl ec (snd (snd t)) Hc) as E3.
    repeat split; apply (num_pos _ T t Hin); cbv beta; rewrite ?E1, ?E2, ?E3; reflexivity.
  Qed.
  Lemma ratio_pos t : In t T -> 0 < ratio t.
  Proof using Ha Hb Hc.
    intros Hin. destruct (counts_pos t Hin) as [H1 [H2 [H3 H4]]]. unfold ratio.
    apply Rdiv_lt_0_compat; apply Rmult_lt_0_compat; lra.
  Qed.

  (** Is the combination of the first coordinate of one triple with the others of the
      second among the triples? *)
  Definition crossed (j k : A * (B * C)) : bool :=
    existsb (fun t => ea (fst j) (fst t) && (eb (fst (snd k)) (fst (snd t)) && ec (snd (snd j)) (snd (snd t)))) T.

  Lemma crossed_sum j k :
    Rsum (map (fun t => ind (ea (fst j) (fst t) && (eb (fst (snd k)) (fst (snd t)) && ec (snd (snd j)) (snd (snd t)))) /
                        c_xyz (fst t) (fst (snd t)) (snd (snd t))) T) = ind (crossed j k).
  Proof using Ha Hb Hc.
    set (f := fun t : A * (B * C) => ea (fst j) (fst t) && (eb (fst (snd k)) (fst (snd t)) && ec (snd (snd j)) (snd (snd t)))).
    rewrite (Rsum_ext _ (fun t => / c_xyz (fst j) (fst (snd k)) (snd (snd j)) * ind (f t))).
    - rewrite Rsum_scal. change (Rsum (map (fun t => ind (f t)) T)) with (c_xyz (fst j) (fst (snd k)) (snd (snd j))).
      unfold crossed. fold f. destruct (existsb f T) eqn:E.
      + apply existsb_exists in E. destruct E as [t [Hin Ht]].
        pose proof (num_pos f T t Hin Ht) as H. unfold c_xyz. fold f. cbn [ind]. field. lra.
      + assert (H : c_xyz (fst j) (fst (snd k)) (snd (snd j)) = 0).
        { unfold c_xyz. fold f. unfold num. apply Rsum_zero. intros t Hin. destruct (f t) eqn:Ef; [|reflexivity].
          assert (existsb f T = true) by (apply existsb_exists; eauto). congruence. }
        rewrite H. cbn [ind]. ring.
    - intros t Hin. change (ea (fst j) (fst t) && _) with (f t). destruct (f t) eqn:Ef; cbn [ind]; [|unfold Rdiv; ring].
      unfold f in Ef. apply andb_prop in Ef. destruct Ef as [E1 Ef]. apply andb_prop in Ef. destruct Ef as [E2 E3].
      apply Ha in E1. apply Hb in E2. apply Hc in E3. rewrite E1, E2, E3. unfold Rdiv. ring.
  Qed.

  Lemma ratio_sum : Rsum (map ratio T) =
    Rsum (map (fun j => Rsum (map (fun k =>
      ind (ec (snd (snd j)) (snd (snd k))) / c_z (snd (snd j)) * ind (crossed j k)) T)) T).
  Proof using Ha Hb Hc.
    rewrite (Rsum_ext ratio (fun t => Rsum (map (fun j => Rsum (map (fun k =>
      ind (ec (snd (snd j)) (snd (snd k))) / c_z (snd (snd j)) *
      (ind (ea (fst j) (fst t) && (eb (fst (snd k)) (fst (snd t)) && ec (snd (snd j)) (snd (snd t)))) /
       c_xyz (fst t) (fst (snd t)) (snd (snd t)))) T)) T))).
    - rewrite Rsum_swap. apply Rsum_ext. intros j _. rewrite Rsum_swap. apply Rsum_ext. intros k _.
      rewrite Rsum_scal, crossed_sum. reflexivity.
    - intros t Hin. destruct (counts_pos t Hin) as [H1 [H2 [H3 H4]]].
      rewrite (Rsum_ext _ (fun j => c_yz (fst (snd t)) (snd (snd t)) / (c_xyz (fst t) (fst (snd t)) (snd (snd t)) * c_z (snd (snd t))) *
        ind (ea (fst t) (fst j) && ec (snd (snd t)) (snd (snd j))))).
      + rewrite Rsum_scal. fold (num (fun j => ea (fst t) (fst j) && ec (snd (snd t)) (snd (snd j))) T).
        change (Rsum _) with (c_xz (fst t) (snd (snd t))). unfold ratio. field. lra.
      + intros j _. destruct (ea (fst t) (fst j) && ec (snd (snd t)) (snd (snd j))) eqn:E.
        * apply andb_prop in E. destruct E as [E1 E2]. apply Ha in E1. apply Hc in E2. rewrite <- E1, <- E2.
          rewrite (Rsum_ext _ (fun k => / (c_xyz (fst t) (fst (snd t)) (snd (snd t)) * c_z (snd (snd t))) *
            ind (eb (fst (snd t)) (fst (snd k)) && ec (snd (snd t)) (snd (snd k))))).
          { rewrite Rsum_scal. change (Rsum _) with (c_yz (fst (snd t)) (snd (snd t))). cbn [ind]. field. lra. }
          intros k _. rewrite (reflects_refl ea _ Ha), (reflects_refl ec _ Hc), andb_true_r, andb_true_l.
          assert (Es : eb (fst (snd k)) (fst (snd t)) = eb (fst (snd t)) (fst (snd k))).
          { apply eq_iff_eq_true. rewrite (Hb (fst (snd k)) (fst (snd t))), (Hb (fst (snd t)) (fst (snd k))).
            split; intros ->; reflexivity. }
          rewrite Es. clear Es. destruct (eb (fst (snd t)) (fst (snd k))), (ec (snd (snd t)) (snd (snd k))); cbn [ind andb]; field; lra.
        * cbn [ind]. rewrite Rmult_0_r. apply Rsum_zero. intros k _.
          destruct (ea (fst j) (fst t)) eqn:E1; cbn [andb]; [|cbn [ind]; unfold Rdiv; ring].
          destruct (ec (snd (snd j)) (snd (snd t))) eqn:E2; rewrite ?andb_false_r; [|cbn [ind]; unfold Rdiv; ring].
          apply Ha in E1. apply Hc in E2. rewrite E1, E2, (reflects_refl ea _ Ha), (reflects_refl ec _ Hc) in E. discriminate.
  Qed.

  Lemma row_total j : In j T ->
    Rsum (map (fun k => ind (ec (snd (snd j)) (snd (snd k))) / c_z (snd (snd j))) T) = 1.
  Proof using Ha Hb Hc.
    intros Hin. destruct (counts_pos j Hin) as [H1 _].
    rewrite (Rsum_ext _ (fun k => / c_z (snd (snd j)) * ind (ec (snd (snd j)) (snd (snd k))))) by (intros; unfold Rdiv; ring).
    rewrite Rsum_scal. change (Rsum _) with (c_z (snd (snd j))). field. lra.
  Qed.

  Lemma ind_le b : 0 <= ind b <= 1.
  Proof using. destruct b; cbn [ind]; lra. Qed.

  Lemma ratio_le j k : In j T ->
    ind (ec (snd (snd j)) (snd (snd k))) / c_z (snd (snd j)) * ind (crossed j k) <=
    ind (ec (snd (snd j)) (snd (snd k))) / c_z (snd (snd j)).
  Proof using Ha Hb Hc.
    intros Hin. destruct (counts_pos j Hin) as [H1 _].
    assert (H : 0 <= ind (ec (snd (snd j)) (snd (snd k))) / c_z (snd (snd j))).
    { apply Rmult_le_pos; [apply ind_le|]. left. apply Rinv_0_lt_compat. lra. }
    pose proof (ind_le (crossed j k)). rewrite <- Rmult_1_r. apply Rmult_le_compat_l; lra.
  Qed.

  Lemma ratio_total : Rsum (map ratio T) <= INR (length T).
  Proof using Ha Hb Hc.
    rewrite ratio_sum, <- Rsum_ones. apply Rsum_mono. intros j Hin. rewrite <- (row_total j Hin).
    apply Rsum_mono. intros k _. apply ratio_le, Hin.
  Qed.
  Lemma ratio_tight : Rsum (map ratio T) = INR (length T) -> forall j k, In j T -> In k T ->
    snd (snd j) = snd (snd k) -> In (fst j, (fst (snd k), snd (snd j))) T.
  Proof using Ha Hb Hc.
    rewrite ratio_sum, <- Rsum_ones. intros E j k Hj Hk Ez.
    assert (E1 := Rsum_mono_eq _ _ T (fun j Hin => eq_ind _ (fun r => _ <= r)
      (Rsum_mono _ _ T (fun k _ => ratio_le j k Hin)) _ (row_total j Hin)) E j Hj). cbv beta in E1.
    rewrite <- (row_total j Hj) in E1.
    assert (E2 := Rsum_mono_eq _ _ T (fun k _ => ratio_le j k Hj) E1 k Hk). cbv beta in E2.
    destruct (counts_pos j Hj) as [H1 _]. rewrite Ez, (reflects_refl ec _ Hc) in E2. cbn [ind] in E2.
    rewrite <- Ez in E2.
    assert (Hcr : crossed j k = true).
    { destruct (crossed j k); [reflexivity|]. cbn [ind] in E2. rewrite Rmult_0_r in E2.
      assert (0 < 1 / c_z (snd (snd j))) by (apply Rdiv_lt_0_compat; lra). lra. }
    unfold crossed in Hcr. apply existsb_exists in Hcr. destruct Hcr as [[a [b c]] [Hin Ht]]. cbn [fst snd] in Ht.
    apply andb_prop in Ht. destruct Ht as [F1 Ht]. apply andb_prop in Ht. destruct Ht as [F2 F3].
    apply Ha in F1. apply Hb in F2. apply Hc in F3. rewrite F1, F2, F3. exact Hin.
  Qed.

  (** The information: the average of [- ln ratio]. *)
  Lemma info_nonneg : 0 <= Rsum (map (fun t => - ln (ratio t)) T).
  Proof using Ha Hb Hc.
    apply Rle_trans with (Rsum (map (fun t => 1 + -1 * ratio t) T)).
    - rewrite Rsum_plus, Rsum_scal, Rsum_ones. pose proof ratio_total. lra.
    - apply Rsum_mono. intros t Hin. pose proof (ln_le_pred _ (ratio_pos t Hin)). lra.
  Qed.
  Lemma info_zero : Rsum (map (fun t => - ln (ratio t)) T) = 0 <->
    forall j k, In j T -> In k T -> snd (snd j) = snd (snd k) ->
      c_xyz (fst j) (fst (snd k)) (snd (snd j)) * c_z (snd (snd j)) =
      c_xz (fst j) (snd (snd j)) * c_yz (fst (snd k)) (snd (snd j)).
  Proof using Ha Hb Hc.
    split.
    - intros E j k Hj Hk Ez.
      assert (Hle : forall t, In t T -> 1 + -1 * ratio t <= - ln (ratio t)).
      { intros t Hin. pose proof (ln_le_pred _ (ratio_pos t Hin)). lra. }
      assert (Hs : Rsum (map (fun t => 1 + -1 * ratio t) T) = Rsum (map (fun t => - ln (ratio t)) T)).
      { pose proof (Rsum_mono _ _ T Hle) as H. rewrite E in H |- *. rewrite Rsum_plus, Rsum_scal, Rsum_ones in H |- *.
        pose proof ratio_total. lra. }
      assert (H1 : forall t, In t T -> ratio t = 1).
      { intros t Hin. pose proof (Rsum_mono_eq _ _ T Hle Hs t Hin) as H. cbv beta in H.
        apply (ln_eq_pred _ (ratio_pos t Hin)). lra. }
      assert (Ht : Rsum (map ratio T) = INR (length T)).
      { rewrite <- Rsum_ones. apply Rsum_ext. exact H1. }
      pose proof (ratio_tight Ht j k Hj Hk Ez) as Hin. pose proof (H1 _ Hin) as Hr. unfold ratio in Hr.
      cbn [fst snd] in Hr. destruct (counts_pos _ Hin) as [P1 [_ [_ P4]]]. cbn [fst snd] in P1, P4.
      set (p := c_xyz _ _ _) in *. set (q := c_z _) in *. set (r := c_xz _ _) in *. set (s := c_yz _ _) in *.
      assert (E2 : r * s = r * s / (p * q) * (p * q)) by (field; lra). rewrite Hr in E2. lra.
    - intros H. apply Rsum_zero. intros t Hin. destruct (counts_pos t Hin) as [P1 [P2 [P3 P4]]].
      unfold ratio. rewrite <- (H t t Hin Hin eq_refl). unfold Rdiv. rewrite Rinv_r, ln_1; [ring|].
      apply Rmult_integral_contrapositive_currified; lra.
  Qed.
End Triples.
