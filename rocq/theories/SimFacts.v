(** Simulation from views and states: proofs about Query.v. *)
From Verif Require Import Query PartitionFacts StateFacts LogSpaceFacts ImportanceFacts BaseFacts ListFacts.
From Coq Require Import Lia.
Local Open Scope R_scope.

(** The entries of a row of [zip_rows ls] come from the lists, in order. *)
Lemma zip_rows_spec {A} (ls : list (list A)) n : ls <> [] -> (forall l, In l ls -> length l = n) ->
  length (zip_rows ls) = n /\
  forall i row, nth_error (zip_rows ls) i = Some row -> Forall2 (fun l x => nth_error l i = Some x) ls row.
Proof.
  induction ls as [|l ls IH]; intros Hne HL; [contradiction|].
  destruct ls as [|l2 ls].
  - cbn [zip_rows]. split; [rewrite map_length; apply HL; left; reflexivity|].
    intros i row. rewrite nth_error_map. destruct (nth_error l i) as [x|] eqn:E; cbn [option_map]; [|discriminate].
    intros H. injection H as <-. constructor; [exact E|constructor].
  - destruct IH as [I1 I2]; [discriminate|intros l' Hl'; apply HL; right; exact Hl'|].
    change (zip_rows (l :: l2 :: ls)) with (map (fun p => fst p :: snd p) (combine l (zip_rows (l2 :: ls)))).
    split; [rewrite map_length, combine_length, I1, (HL l (or_introl eq_refl)); lia|].
    intros i row. rewrite nth_error_map. destruct (nth_error (combine l (zip_rows (l2 :: ls))) i) as [[x row']|] eqn:E; cbn [option_map]; [|discriminate].
    intros H. injection H as <-. cbn [fst snd].
    assert (G : forall {B C} (a : list B) (b : list C) j x y, nth_error (combine a b) j = Some (x, y) ->
        nth_error a j = Some x /\ nth_error b j = Some y).
    { clear. intros B C a. induction a as [|a0 a IH]; intros b j x y; [destruct j; discriminate|].
      destruct b as [|b0 b]; [destruct j; discriminate|]. destruct j; cbn; [intros H; injection H as <- <-; auto|apply IH]. }
    destruct (G _ _ _ _ _ _ _ E) as [G1 G2]. constructor; [exact G1|apply I2; exact G2].
Qed.

(** Dictionaries with the keys [T]. *)
Definition complete {A} (T : list Z) (d : dict A) : Prop :=
  NoDup (dkeys d) /\ forall c, In c (dkeys d) <-> In c T.

Lemma dupdate_keys {A} (e : dict A) : forall d c, In c (dkeys (dupdate d e)) <-> In c (dkeys d) \/ In c (dkeys e).
Proof.
  unfold dupdate. induction e as [|[k v] e IH]; intros d c; cbn [fold_left fst snd]; [cbn; tauto|].
  rewrite IH, in_dkeys_dset. cbn. intuition.
Qed.

Lemma merged_all_spec {A} (ds : list (dict A)) :
  NoDup (dkeys (merged_all ds)) /\
  (forall c, In c (dkeys (merged_all ds)) <-> exists d, In d ds /\ In c (dkeys d)).
Proof.
  unfold merged_all.
  assert (G : forall ds (d0 : dict A), NoDup (dkeys d0) -> NoDup (dkeys (fold_left dupdate ds d0)) /\
    forall c, In c (dkeys (fold_left dupdate ds d0)) <-> In c (dkeys d0) \/ exists d, In d ds /\ In c (dkeys d)).
  { clear. induction ds as [|d ds IH]; intros d0 H0; cbn [fold_left].
    - split; [exact H0|]. intros c. split; [auto|]. intros [H|[d [[] _]]]. exact H.
    - destruct (IH (dupdate d0 d) (dupdate_NoDup d d0 H0)) as [I1 I2]. split; [exact I1|]. intros c. rewrite I2, dupdate_keys.
      split.
      + intros [[H|H]|[d' [H1 H2]]]; [auto|right; exists d; split; [left; reflexivity|exact H]|right; exists d'; split; [right; exact H1|exact H2]].
      + intros [H|[d' [[<-|H1] H2]]]; [auto|auto|right; eauto]. }
  destruct (G ds [] (NoDup_nil _)) as [G1 G2]. split; [exact G1|]. intros c. rewrite G2. cbn. intuition.
Qed.

(** Merging dictionaries with distinct keys keeps every entry. *)
Lemma merged_all_get {A} (ds : list (dict A)) : NoDup (concat (map dkeys ds)) ->
  forall d c x, In d ds -> dget c d = Some x -> dget c (merged_all ds) = Some x.
Proof.
  unfold merged_all.
  assert (G : forall ds (d0 : dict A), NoDup (concat (map dkeys ds)) -> forall c x,
    ((forall d, In d ds -> ~ In c (dkeys d)) /\ dget c d0 = Some x) \/ (exists d, In d ds /\ dget c d = Some x) ->
    dget c (fold_left dupdate ds d0) = Some x).
  { clear. induction ds as [|d ds IH]; intros d0 Hn c x H; cbn [fold_left].
    - destruct H as [[_ H]|[d [[] _]]]. exact H.
    - cbn [map concat] in Hn.
      assert (Hd : NoDup (dkeys d)) by (apply (NoDup_app_elim _ _ Hn)).
      assert (Hds : NoDup (concat (map dkeys ds))) by (apply (NoDup_app_elim _ _ Hn)).
      apply IH; [exact Hds|]. rewrite dupdate_get by exact Hd.
      destruct H as [[H1 H2]|[d' [[<-|H1] H2]]].
      + left. split; [intros d' Hd'; apply H1; right; exact Hd'|].
        assert (E : dget c d = None) by (apply dget_None_notin, H1; left; reflexivity). rewrite E. exact H2.
      + left. rewrite H2. split; [|reflexivity]. intros d' Hd' Hc.
        apply dget_Some_in in H2.
        assert (F : In c (concat (map dkeys ds))) by (apply in_concat; exists (dkeys d'); split; [apply in_map; exact Hd'|exact Hc]).
        exact (proj2 (proj2 (NoDup_app_elim _ _ Hn)) c H2 F).
      + right. eauto. }
  intros Hn d c x Hd Hc. apply G; [exact Hn|]. right. eauto.
Qed.

(** A row of samples drawn in cluster [k] with the [i]-th draws of the columns. *)
Definition drawn (src : Z -> Z -> nat -> res R) (T : list Z) (k : Z) (d : dict R) : Prop :=
  complete T d /\ exists i, forall c, In c T -> exists x, src c k i = Ok x /\ dget c d = Some x.

Lemma simulate_row_spec v src T k n l : T <> [] -> NoDup T -> simulate_row v src T k n = Ok l ->
  length l = n /\ Forall (drawn src T k) l /\ (forall c, In c T -> In c (dkeys (v_dims v))).
Proof.
  intros Hne HT. unfold simulate_row. destruct (rsequence _) as [ss|e] eqn:E; cbn [rbind]; [|discriminate].
  intros H. injection H as <-. apply rsequence_ok in E.
  (* the columns *)
  assert (HC : Forall2 (fun c l => length l = n /\ In c (dkeys (v_dims v)) /\
                forall i d, nth_error l i = Some d -> exists x, src c k i = Ok x /\ d = [(c, x)]) T ss).
  { clear Hne HT. revert ss E. induction T as [|c T IH]; intros [|l ss] E; cbn in E; try discriminate; constructor.
    - injection E as E _. destruct (dmem c (v_dims v)) eqn:Ed; [|discriminate].
      split; [rewrite (rsequence_length _ _ E), map_length, seq_length; reflexivity|]. split; [apply dmem_in; exact Ed|].
      apply rsequence_ok in E. intros i d Hd. apply (map_nth_error Ok) in Hd. rewrite <- E, nth_error_map in Hd.
      destruct (nth_error (seq 0 n) i) as [j|] eqn:Ej; [|discriminate]. cbn [option_map] in Hd. injection Hd as Hd.
      assert (Hi : (i < n)%nat) by (rewrite <- (seq_length n 0); apply nth_error_Some; rewrite Ej; discriminate).
      apply (nth_error_nth _ _ 0%nat) in Ej. rewrite seq_nth in Ej by exact Hi. cbn in Ej. subst j.
      destruct (src c k i) as [x|]; [|discriminate]. cbn in Hd. injection Hd as <-. eauto.
    - injection E as _ E. apply IH. exact E. }
  assert (Hss : ss <> []) by (inversion HC; subst; [contradiction|discriminate]).
  assert (HL : forall l, In l ss -> length l = n).
  { clear - HC. intros l Hl. induction HC as [|c l' T ss [H1 _] _ IH]; [destruct Hl|]. destruct Hl as [<-|Hl]; auto. }
  destruct (zip_rows_spec ss n Hss HL) as [Z1 Z2].
  split; [rewrite map_length; exact Z1|]. split.
  - apply Forall_forall. intros d Hd. apply in_map_iff in Hd. destruct Hd as [row [<- Hr]].
    apply In_nth_error in Hr. destruct Hr as [i Hi]. specialize (Z2 i row Hi).
    assert (HR : Forall2 (fun c d => exists x, src c k i = Ok x /\ d = [(c, x)]) T row).
    { clear - HC Z2. revert row Z2. induction HC as [|c l T ss [_ [_ H]] _ IH]; intros row Z2; inversion Z2; subst; constructor; auto. }
    assert (HK : concat (map dkeys row) = T).
    { clear - HR. induction HR as [|c d T row [x [_ ->]] _ IH]; [reflexivity|]. cbn. rewrite IH. reflexivity. }
    destruct (merged_all_spec row) as [M1 M2]. split.
    + split; [exact M1|]. intros c. rewrite M2. rewrite <- HK, in_concat. split.
      * intros [d [H1 H2]]. exists (dkeys d). split; [apply in_map; exact H1|exact H2].
      * intros [ks [H1 H2]]. apply in_map_iff in H1. destruct H1 as [d [<- H1]]. eauto.
    + exists i. intros c Hc.
      assert (Hd : exists x, src c k i = Ok x /\ In [(c, x)] row).
      { clear - HR Hc. induction HR as [|c' d T row [x [E ->]] _ IH]; [destruct Hc|]. destruct Hc as [->|Hc].
        - exists x. split; [exact E|left; reflexivity].
        - destruct (IH Hc) as [y [E1 E2]]. exists y. split; [exact E1|right; exact E2]. }
      destruct Hd as [x [E1 E2]]. exists x. split; [exact E1|].
      apply (merged_all_get row) with (d := [(c, x)]); [rewrite HK; exact HT|exact E2|cbn; rewrite Z.eqb_refl; reflexivity].
  - intros c Hc. clear - HC Hc. induction HC as [|c' l T ss [_ [H _]] _ IH]; [destruct Hc|]. destruct Hc as [->|Hc]; auto.
Qed.

(** bincount lists the clusters in ascending order, each as often as drawn. *)
Lemma ss_app (a b : list Z) : StronglySorted Z.le a -> StronglySorted Z.le b ->
  (forall x y, In x a -> In y b -> (x <= y)%Z) -> StronglySorted Z.le (a ++ b).
Proof.
  induction a as [|x a IH]; intros Ha Hb H; [exact Hb|]. inversion Ha; subst. cbn. constructor.
  - apply IH; [assumption|exact Hb|]. intros y z Hy Hz. apply H; [right|]; assumption.
  - apply Forall_app. split; [assumption|]. apply Forall_forall. intros y Hy. apply H; [left; reflexivity|exact Hy].
Qed.
Lemma ss_repeat (k : Z) m : StronglySorted Z.le (repeat k m).
Proof.
  induction m; cbn; constructor; [assumption|]. apply Forall_forall. intros x Hx. apply repeat_spec in Hx. lia.
Qed.
Definition expand (counts : list (Z * nat)) : list Z := concat (map (fun kn => repeat (fst kn) (snd kn)) counts).

Lemma bincount_spec ks counts : bincount ks = Ok counts ->
  (forall k, In k ks -> (0 <= k)%Z) /\ ks <> [] /\
  Permutation (expand counts) ks /\ StronglySorted Z.le (expand counts).
Proof.
  unfold bincount. destruct (existsb _ ks) eqn:En; [discriminate|]. destruct (is_nil ks) eqn:Ei; [discriminate|].
  assert (Hks : ks <> []) by (intros ->; discriminate).
  cbn [orb]. intros H. injection H as <-. split.
  { intros k Hk. destruct (Z.leb_spec 0 k); [assumption|]. exfalso. rewrite <- not_true_iff_false in En. apply En.
    apply existsb_exists. exists k. split; [exact Hk|]. apply Z.ltb_lt. assumption. }
  split; [exact Hks|]. unfold expand. rewrite map_map. cbn [fst snd].
  assert (Hn : NoDup (zsort (nodup Z.eq_dec ks))) by (apply zsort_NoDup, NoDup_nodup).
  assert (Hs : StronglySorted Z.le (zsort (nodup Z.eq_dec ks))) by apply zsort_sorted.
  split.
  - apply (Permutation_count_occ Z.eq_dec). intros k.
    assert (G : forall l, NoDup l -> count_occ Z.eq_dec (concat (map (fun x => repeat x (count_in x ks)) l)) k
                = if in_dec Z.eq_dec k l then count_in k ks else 0%nat).
    { clear. induction l as [|x l IH]; intros Hn; [reflexivity|]. inversion Hn; subst. cbn [map concat].
      rewrite count_occ_app, IH by assumption.
      assert (R : forall y m, count_occ Z.eq_dec (repeat y m) k = if Z.eq_dec y k then m else 0%nat).
      { clear. intros y m. induction m; cbn; destruct (Z.eq_dec y k); auto. }
      rewrite R. destruct (Z.eq_dec x k) as [->|Hx].
      - destruct (in_dec Z.eq_dec k l); [contradiction|]. destruct (in_dec Z.eq_dec k (k :: l)) as [|F]; [lia|]. destruct F. left. reflexivity.
      - destruct (in_dec Z.eq_dec k l), (in_dec Z.eq_dec k (x :: l)) as [F|F]; try reflexivity.
        + destruct F. right. assumption.
        + destruct F; [contradiction|contradiction]. }
    rewrite G by exact Hn. destruct (in_dec Z.eq_dec k (zsort (nodup Z.eq_dec ks))) as [|F]; [reflexivity|].
    symmetry. apply count_occ_not_In. intros Hk. apply F. apply zsort_in, nodup_In. exact Hk.
  - clear Hn. induction (zsort (nodup Z.eq_dec ks)) as [|x l IH]; cbn; [constructor|].
    inversion Hs; subst. apply ss_app; [apply ss_repeat|apply IH; assumption|].
    intros a b Ha Hb. apply repeat_spec in Ha. subst a. apply in_concat in Hb. destruct Hb as [m [Hm Hb]].
    apply in_map_iff in Hm. destruct Hm as [y [<- Hy]]. apply repeat_spec in Hb. subst b.
    rewrite Forall_forall in H2. apply H2. exact Hy.
Qed.

Lemma F2_length {A B} (P : A -> B -> Prop) a b : Forall2 P a b -> length a = length b.
Proof. induction 1; cbn; congruence. Qed.
Lemma Forall_repeat2 {A B} (P : A -> B -> Prop) k l : Forall (P k) l -> Forall2 P (repeat k (length l)) l.
Proof. induction 1; cbn; constructor; assumption. Qed.

(** The samples come in ascending order of the clusters that serve them. *)
Lemma grouped src T v counts : forall samples, T <> [] -> NoDup T ->
  rsequence (map (fun kn => simulate_row v src T (fst kn) (snd kn)) counts) = Ok samples ->
  Forall2 (drawn src T) (expand counts) (concat samples).
Proof.
  induction counts as [|[k m] counts IH]; intros samples Hne HT H; cbn [map rsequence] in H.
  - injection H as <-. constructor.
  - destruct (simulate_row v src T _ _) as [l|] eqn:El; cbn [rbind] in H; [|discriminate].
    destruct (rsequence _) as [ss|] eqn:Es; cbn [rbind] in H; [|discriminate]. injection H as <-.
    cbn [fst snd] in El. destruct (simulate_row_spec _ _ _ _ _ _ Hne HT El) as [L1 [L2 _]].
    unfold expand. cbn [map concat fst snd]. apply Forall2_app; [|apply IH; auto].
    rewrite <- L1. apply Forall_repeat2. exact L2.
Qed.

(** view_simulate: the clusters of the samples, in the order of the samples. *)
Lemma view_simulate_spec draws src v r T C n l : T <> [] -> NoDup T -> view_simulate draws src v r T C n = Ok l ->
  exists ks, length ks = n /\ Forall2 (drawn src T) ks l /\ StronglySorted Z.le ks /\
    (v_hypothetical v r = false -> forall k, In k ks -> dget r (v_rows v) = Some k) /\
    (v_hypothetical v r = true -> exists K a b drawnks, cluster_weights v C = Ok (K, a, b) /\
       log_pflip_many draws (eadds a b) K n = Ok drawnks /\ Permutation ks drawnks).
Proof.
  intros Hne HT. unfold view_simulate. destruct (v_hypothetical v r) eqn:Eh; cbn [negb].
  - destruct (cluster_weights v C) as [[[K a] b]|e] eqn:Ew; cbn [rbind]; [|discriminate].
    destruct (log_pflip_many draws (eadds a b) K n) as [ks|e] eqn:Ek; cbn [rbind]; [|discriminate].
    destruct (bincount ks) as [counts|e] eqn:Eb; cbn [rbind]; [|discriminate].
    destruct (rsequence _) as [ss|e] eqn:Es; cbn [rbind]; [|discriminate]. intros H. injection H as <-.
    destruct (bincount_spec _ _ Eb) as [_ [_ [B1 B2]]]. exists (expand counts).
    assert (Hl : length ks = n).
    { revert Ek. unfold log_pflip_many. destruct (log_normalize (eadds a b)) as [lp|e]; cbn [rbind]; [|discriminate].
      unfold pflip_many.
      assert (G : forall p : list ext, (if Nat.eqb (length K) (length p) && forallb ext_nonneg (normalize p)
          then rsequence (map (fun j => choice (draws j) K (normalize p)) (seq 0 n)) else Err ValueError) = Ok ks -> length ks = n).
      { intros p. destruct (_ && _); [|discriminate]. intros E. rewrite (rsequence_length _ _ E), map_length, seq_length. reflexivity. }
      destruct (map eexp lp) as [|p1 [|p2 p]]; [apply G| |apply G].
      destruct K as [|k K]; [discriminate|]. intros E. injection E as <-. apply repeat_length. }
    split; [rewrite (Permutation_length B1); exact Hl|]. split; [eapply grouped; eassumption|]. split; [exact B2|].
    split; [discriminate|]. intros _. exists K, a, b, ks. auto.
  - destruct (dget r (v_rows v)) as [k|] eqn:Ek; [|discriminate]. intros H.
    destruct (simulate_row_spec _ _ _ _ _ _ Hne HT H) as [L1 [L2 _]]. exists (repeat k n).
    split; [apply repeat_length|]. split; [rewrite <- L1; apply Forall_repeat2; exact L2|]. split; [apply ss_repeat|].
    split; [|discriminate]. intros _ k' Hk'. apply repeat_spec in Hk'. subst. reflexivity.
Qed.

Lemma view_simulate_shape draws src v r T C n l : T <> [] -> NoDup T -> view_simulate draws src v r T C n = Ok l ->
  length l = n /\ Forall (complete T) l.
Proof.
  intros Hne HT H. destruct (view_simulate_spec _ _ _ _ _ _ _ _ Hne HT H) as [ks [K1 [K2 _]]].
  split; [rewrite <- K1; symmetry; eapply F2_length; exact K2|].
  clear - K2. induction K2 as [|k d ks l [H _] _ IH]; constructor; assumption.
Qed.

Lemma has_dup_NoDup T : has_dup T = false -> NoDup T.
Proof.
  unfold has_dup. rewrite negb_false_iff, Nat.eqb_eq. intros H.
  induction T as [|x T IH]; [constructor|]. cbn in H. destruct (in_dec Z.eq_dec x T) as [Hi|Hi].
  - exfalso. clear IH Hi. assert (G : (length (nodup Z.eq_dec T) <= length T)%nat).
    { clear. induction T; cbn; [lia|]. destruct (in_dec Z.eq_dec a T); cbn; lia. }
    cbn in H. lia.
  - cbn in H. constructor; [exact Hi|]. apply IH. lia.
Qed.

(** state_samples. *)
Lemma state_samples_shape draws src s r T C n l : T <> [] -> NoDup T -> state_samples draws src s r T C n = Ok l ->
  length l = n /\ Forall (complete T) l.
Proof.
  intros Hne HT. unfold state_samples. destruct (partition_dict (s_zv s) C) as [cl|e]; cbn [rbind]; [|discriminate].
  destruct (partition_list (s_zv s) T) as [tl|e] eqn:Et; cbn [rbind]; [|discriminate].
  destruct (rsequence _) as [ss|e] eqn:Es; cbn [rbind]; [|discriminate]. intros H. injection H as <-.
  pose proof (partition_list_perm _ _ _ Et) as HP. destruct (partition_list_spec _ _ _ Et) as [N [_ S]].
  assert (Htl : tl <> []).
  { intros ->. cbn in HP. apply Permutation_nil in HP. contradiction. }
  assert (HE : forall v T', In (v, T') tl -> T' <> [] /\ NoDup T').
  { intros v T' Hi. pose proof (dget_In_NoDup _ _ _ N Hi) as E. rewrite S in E.
    destruct (filter (in_block (s_zv s) v) T) as [|c L] eqn:Ef; [discriminate|]. injection E as <-.
    split; [discriminate|]. rewrite <- Ef. apply NoDup_filter. exact HT. }
  apply rsequence_ok in Es.
  assert (HF : Forall2 (fun vt l => length l = n /\ Forall (complete (snd vt)) l) tl ss).
  { clear - Es HE. revert ss Es. induction tl as [|[v T'] tl IH]; intros [|l ss] Es; cbn in Es; try discriminate; constructor.
    - injection Es as E _. destruct (dget v (s_views s)) as [w|]; [|discriminate].
      destruct (HE v T' (or_introl eq_refl)) as [H1 H2]. eapply view_simulate_shape; eassumption.
    - injection Es as _ E. apply IH; [intros v' T'' Hi; eapply HE; right; exact Hi|exact E]. }
  assert (Hss : ss <> []) by (inversion HF; subst; [contradiction|discriminate]).
  assert (HL : forall l, In l ss -> length l = n).
  { clear - HF. intros l Hl. induction HF as [|c l' T ss [H1 _] _ IH]; [destruct Hl|]. destruct Hl as [<-|Hl]; auto. }
  destruct (zip_rows_spec ss n Hss HL) as [Z1 Z2]. split; [rewrite map_length; exact Z1|].
  apply Forall_forall. intros d Hd. apply in_map_iff in Hd. destruct Hd as [row [<- Hr]].
  apply In_nth_error in Hr. destruct Hr as [i Hi]. specialize (Z2 i row Hi).
  assert (HR : Forall2 (fun vt d => complete (snd vt) d) tl row).
  { clear - HF Z2. revert row Z2. induction HF as [|vt l tl ss [_ H] _ IH]; intros row Z2; inversion Z2; subst; constructor; auto.
    rewrite Forall_forall in H. apply H. eapply nth_error_In. eassumption. }
  destruct (merged_all_spec row) as [M1 M2]. split; [exact M1|]. intros c. rewrite M2.
  transitivity (In c (concat (dvals tl))).
  - clear - HR. induction HR as [|vt d tl row [_ H] _ IH]; cbn; [split; [intros [d [[] _]]|tauto]|].
    rewrite in_app_iff, <- IH, <- H. split.
    + intros [d' [[<-|H1] H2]]; [auto|right; eauto].
    + intros [H1|[d' [H1 H2]]]; [exists d; auto|exists d'; auto].
  - split; apply Permutation_in; [exact HP|apply Permutation_sym; exact HP].
Qed.
