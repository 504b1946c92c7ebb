(** C61: the estimators of entropy and information from samples. *)
From Verif Require Import Prob MetadataFacts EntropyFacts EntropyNear.
Local Open Scope R_scope.

(* ------------------------------------------------------------------ *)
(** ** Specification *)

(** How often [a] occurs among the samples, and its relative frequency. *)
Fixpoint occurs {A} (dec : forall a b : A, {a = b} + {a <> b}) (a : A) (l : list A) : nat :=
  match l with
  | [] => 0
  | b :: l' => if dec a b then S (occurs dec a l') else occurs dec a l'
  end.
Definition share {A} (dec : forall a b : A, {a = b} + {a <> b}) (l : list A) (a : A) : R :=
  INR (occurs dec a l) / INR (length l).
(** The entropy of the empirical distribution, in nats: the mean of [- ln share]. *)
Definition emp_entropy {A} (dec : forall a b : A, {a = b} + {a <> b}) (l : list A) : R :=
  Rsum (map (fun a => - ln (share dec l a)) l) / INR (length l).
Definition decides {A} (eqb : A -> A -> bool) (dec : forall a b : A, {a = b} + {a <> b}) : Prop :=
  forall a b, eqb a b = if dec a b then true else false.
Definition dec_pair {A B} (da : forall a b : A, {a = b} + {a <> b}) (db : forall a b : B, {a = b} + {a <> b})
  (p q : A * B) : {p = q} + {p <> q}.
Proof. decide equality. Defined.

Lemma decides_reflects {A} (eqb : A -> A -> bool) dec : decides eqb dec -> reflects eqb.
Proof. intros H a b. rewrite H. destruct (dec a b); split; congruence. Qed.
Lemma decides_pair {A B} (ea : A -> A -> bool) (eb : B -> B -> bool) da db : decides ea da -> decides eb db ->
  decides (pair_eqb ea eb) (dec_pair da db).
Proof.
  intros Ha Hb p q. pose proof (reflects_pair _ _ (decides_reflects _ _ Ha) (decides_reflects _ _ Hb) p q) as H.
  destruct (dec_pair da db p q) as [E|E]; [apply H, E|]. destruct (pair_eqb ea eb p q); [|reflexivity].
  destruct E. apply H. reflexivity.
Qed.
Lemma occurs_num {A} (eqb : A -> A -> bool) dec a l : decides eqb dec -> INR (occurs dec a l) = num (eqb a) l.
Proof.
  intros H. induction l as [|b l IH]; [reflexivity|]. unfold num in *. cbn [occurs map]. simpl. rewrite (H a b).
  destruct (dec a b); [rewrite S_INR|]; rewrite IH; lra.
Qed.
Lemma share_freq {A} (eqb : A -> A -> bool) dec a l : decides eqb dec -> share dec l a = freq eqb l a.
Proof. intros H. unfold share, freq. rewrite (occurs_num eqb dec a l H). reflexivity. Qed.
Lemma emp_surprise {A} (eqb : A -> A -> bool) dec l : decides eqb dec -> emp_entropy dec l = surprise eqb l.
Proof.
  intros H. unfold emp_entropy, surprise. f_equal. apply Rsum_ext. intros a _. rewrite (share_freq eqb dec a l H). reflexivity.
Qed.

(* ------------------------------------------------------------------ *)
(** ** Entropy *)

(** entropyd is the entropy of the empirical distribution in the given base; a base that
    is not positive raises ValueError and base one ZeroDivisionError. *)
Theorem C61_entropy : forall A (eqb : A -> A -> bool) dec (l : list A) base, decides eqb dec ->
  entropyd eqb l base =
    if Rltb 0 base then
      (if Reqb base 1 then Err ZeroDivisionError else Ok (emp_entropy dec l / ln base))
    else Err ValueError.
Proof.
  intros A eqb dec l base H. unfold entropyd, entropyfromprobs.
  rewrite (hist_surprise eqb l (decides_reflects _ _ H)), <- (emp_surprise eqb dec l H). apply per_base_err.
Qed.
Print Assumptions C61_entropy.

Lemma occurs_pos {A} dec (a : A) l : In a l -> (0 < occurs dec a l)%nat.
Proof.
  induction l as [|b l IH]; [intros []|]. intros [->|H]; cbn [occurs]; destruct (dec a a) as [|n] eqn:E;
    try (destruct n; reflexivity); try lia.
  - destruct (dec a b); [lia|auto].
Qed.
Lemma occurs_le {A} dec (a : A) l : (occurs dec a l <= length l)%nat.
Proof. induction l as [|b l IH]; cbn [occurs length]; [lia|]. destruct (dec a b); lia. Qed.
Lemma occurs_full {A} dec (a : A) l : occurs dec a l = length l -> forall b, In b l -> a = b.
Proof.
  induction l as [|c l IH]; cbn [occurs length]; [intros _ b []|]. pose proof (occurs_le dec a l).
  destruct (dec a c) as [E|E]; [|lia]. intros H1 b [<-|Hb]; [exact E|]. apply IH; [lia|exact Hb].
Qed.
Lemma occurs_all {A} dec (a : A) l : (forall b, In b l -> b = a) -> occurs dec a l = length l.
Proof.
  induction l as [|c l IH]; cbn [occurs length]; intros H; [reflexivity|].
  rewrite IH by (intros b Hb; apply H; right; exact Hb).
  destruct (dec a c) as [E|E]; [reflexivity|]. destruct E. symmetry. apply H. left. reflexivity.
Qed.
Lemma share_range {A} dec (a : A) l : In a l -> 0 < share dec l a <= 1.
Proof.
  intros H. unfold share. pose proof (lt_0_INR _ (occurs_pos dec a l H)). pose proof (le_INR _ _ (occurs_le dec a l)).
  split; [apply Rdiv_lt_0_compat; lra|]. apply Rmult_le_reg_r with (INR (length l)); [lra|].
  unfold Rdiv. rewrite Rmult_assoc, Rinv_l by lra. lra.
Qed.
Lemma ln_nonpos x : 0 < x <= 1 -> ln x <= 0.
Proof. intros [H1 H2]. pose proof (ln_le_pred x H1). lra. Qed.
Lemma length_pos {A} (a : A) l : In a l -> 0 < INR (length l).
Proof. intros H. apply lt_0_INR. destruct l; [destruct H|simpl; lia]. Qed.

Lemma emp_entropy_nonneg {A} dec (l : list A) : 0 <= emp_entropy dec l.
Proof.
  unfold emp_entropy. destruct l as [|a l]; [simpl; unfold Rdiv; lra|].
  apply Rmult_le_pos; [|left; apply Rinv_0_lt_compat; apply (length_pos a); left; reflexivity].
  rewrite <- (Rsum_zero (fun _ : A => 0) (a :: l)) by reflexivity. apply Rsum_mono. intros b Hb.
  pose proof (ln_nonpos _ (share_range dec b (a :: l) Hb)). lra.
Qed.

(** For a base above one the entropy lies between zero and the logarithm of the number of
    samples; it is zero exactly when all samples agree, and that logarithm exactly when
    they are all different. *)
Theorem C61_entropy_range : forall A (eqb : A -> A -> bool) dec (l : list A) base, decides eqb dec -> 1 < base -> l <> [] ->
  exists h, entropyd eqb l base = Ok h /\ 0 <= h <= ln (INR (length l)) / ln base /\
    (h = 0 <-> forall a b, In a l -> In b l -> a = b) /\
    (h = ln (INR (length l)) / ln base <-> NoDup l).
Proof.
  intros A eqb dec l base H Hb Hl. rewrite (C61_entropy A eqb dec l base H).
  rewrite (proj2 (Rltb_true 0 base)) by lra.
  destruct (Reqb base 1) eqn:E; [apply Reqb_true in E; lra|]. exists (emp_entropy dec l / ln base). split; [reflexivity|].
  assert (Hlb : 0 < ln base) by (rewrite <- ln_1; apply ln_increasing; lra).
  destruct l as [|a0 l0] eqn:El; [congruence|]. rewrite <- El in *.
  assert (Hn : 0 < INR (length l)) by (apply (length_pos a0); rewrite El; left; reflexivity).
  pose proof (emp_entropy_nonneg dec l) as H0.
  assert (Hinv : 0 < / ln base) by (apply Rinv_0_lt_compat; exact Hlb).
  assert (Hup : forall a, In a l -> - ln (share dec l a) <= ln (INR (length l))).
  { intros a Ha. unfold share. pose proof (occurs_pos dec a l Ha) as Hp. apply (le_INR 1) in Hp. change (INR 1) with 1 in Hp.
    unfold Rdiv. rewrite ln_mult, ln_Rinv; [|lra|lra|apply Rinv_0_lt_compat; lra].
    assert (0 <= ln (INR (occurs dec a l))).
    { destruct Hp as [Hp|Hp]; [left; rewrite <- ln_1; apply ln_increasing; lra|]. rewrite <- Hp, ln_1. lra. }
    lra. }
  assert (Hsum : Rsum (map (fun _ : A => ln (INR (length l))) l) = INR (length l) * ln (INR (length l))).
  { rewrite (Rsum_ext _ (fun _ => ln (INR (length l)) * 1)) by (intros; ring). rewrite Rsum_scal, Rsum_ones. ring. }
  assert (Hle : emp_entropy dec l <= ln (INR (length l))).
  { unfold emp_entropy. apply Rmult_le_reg_r with (INR (length l)); [exact Hn|].
    unfold Rdiv. rewrite Rmult_assoc, Rinv_l, Rmult_1_r by lra. rewrite Rmult_comm, <- Hsum. apply Rsum_mono, Hup. }
  split; [split|split].
  - apply Rmult_le_pos; lra.
  - apply Rmult_le_compat_r; lra.
  - assert (Ez : emp_entropy dec l / ln base = 0 <-> emp_entropy dec l = 0).
    { split; intros E1; [|rewrite E1; unfold Rdiv; ring]. unfold Rdiv in E1. apply Rmult_integral in E1. lra. }
    rewrite Ez. clear Ez. split.
    + intros E1. unfold emp_entropy in E1.
      assert (E2 : Rsum (map (fun _ : A => 0) l) = Rsum (map (fun a => - ln (share dec l a)) l)).
      { rewrite Rsum_zero by reflexivity. unfold Rdiv in E1. apply Rmult_integral in E1. destruct E1 as [E1|E1]; [lra|].
        apply Rinv_neq_0_compat in E1; [destruct E1|lra]. }
      intros a b Ha Hb2.
      assert (E3 := Rsum_mono_eq (fun _ => 0) (fun a => - ln (share dec l a)) l
        (fun c Hc => ltac:(pose proof (ln_nonpos _ (share_range dec c l Hc)); lra)) E2 a Ha). cbv beta in E3.
      assert (E4 : share dec l a = 1).
      { apply ln_inv; [apply share_range; exact Ha|lra|rewrite ln_1; lra]. }
      apply (occurs_full dec a l); [|exact Hb2]. apply INR_eq. unfold share in E4.
      replace (INR (occurs dec a l)) with (INR (occurs dec a l) / INR (length l) * INR (length l)) by (field; lra). rewrite E4. ring.
    + intros Hall. unfold emp_entropy. rewrite Rsum_zero; [unfold Rdiv; ring|]. intros a Ha. unfold share.
      rewrite (occurs_all dec a l) by (intros b Hb2; apply Hall; assumption). unfold Rdiv. rewrite Rinv_r, ln_1 by lra. ring.
  - assert (Ez : emp_entropy dec l / ln base = ln (INR (length l)) / ln base <-> emp_entropy dec l = ln (INR (length l))).
    { split; intros E1; [|rewrite E1; reflexivity]. apply Rmult_eq_reg_r with (/ ln base); [exact E1|lra]. }
    rewrite Ez. clear Ez. assert (Hnd : NoDup l <-> forall a, In a l -> occurs dec a l = 1%nat).
    { clear. split.
      - induction l as [|b l IH]; intros H a Ha; [destruct Ha|]. inversion H as [|x y H1 H2]; subst. cbn [occurs].
        assert (Hno : forall c, ~ In c l -> occurs dec c l = 0%nat).
        { clear. intros c. induction l as [|d l IH]; intros H; [reflexivity|]. cbn [occurs].
          destruct (dec c d) as [->|]; [destruct H; left; reflexivity|]. apply IH. intros Hc. apply H. right. exact Hc. }
        destruct (dec a b) as [->|E].
        + rewrite Hno by exact H1. reflexivity.
        + destruct Ha as [->|Ha]; [congruence|]. apply IH; assumption.
      - induction l as [|b l IH]; intros H; [constructor|]. constructor.
        + intros Hb. specialize (H b (or_introl eq_refl)). cbn [occurs] in H. pose proof (occurs_pos dec b l Hb).
          destruct (dec b b); [lia|congruence].
        + apply IH. intros a Ha. specialize (H a (or_intror Ha)). cbn [occurs] in H. pose proof (occurs_pos dec a l Ha).
          destruct (dec a b); lia. }
    rewrite Hnd. unfold emp_entropy. split.
    + intros E1 a Ha.
      assert (E2 : Rsum (map (fun a => - ln (share dec l a)) l) = Rsum (map (fun _ : A => ln (INR (length l))) l)).
      { rewrite Hsum, <- E1. field. lra. }
      assert (E3 := Rsum_mono_eq _ _ l Hup E2 a Ha). cbv beta in E3. unfold share in E3.
      pose proof (lt_0_INR _ (occurs_pos dec a l Ha)) as Hp. unfold Rdiv in E3.
      rewrite ln_mult, ln_Rinv in E3; [|lra|lra|apply Rinv_0_lt_compat; lra].
      apply INR_eq. apply ln_inv; [lra|simpl; lra|]. change (INR 1) with 1. rewrite ln_1. lra.
    + intros Hone. rewrite (Rsum_ext _ (fun _ => ln (INR (length l)))); [rewrite Hsum; field; lra|].
      intros a Ha. unfold share. rewrite (Hone a Ha). change (INR 1) with 1. unfold Rdiv. rewrite Rmult_1_l, ln_Rinv by lra. ring.
Qed.
Print Assumptions C61_entropy_range.

Example C61_entropy_ex : decides Z.eqb Z.eq_dec /\ [3; 3; 5]%Z <> [] /\
  occurs Z.eq_dec 3%Z [3; 3; 5]%Z = 2%nat /\ hist Z.eqb [3; 3; 5]%Z = [INR 2 / INR 3; INR 1 / INR 3].
Proof.
  split; [|split; [discriminate|split; reflexivity]]. intros a b. destruct (Z.eq_dec a b) as [->|E]; [apply Z.eqb_refl|].
  apply Z.eqb_neq. exact E.
Qed.

(* ------------------------------------------------------------------ *)
(** ** Order and names of the samples do not matter *)

Lemma Rsum_perm l l' : Permutation l l' -> Rsum l = Rsum l'.
Proof. induction 1; simpl in *; lra. Qed.
Lemma occurs_perm {A} dec (a : A) l l' : Permutation l l' -> occurs dec a l = occurs dec a l'.
Proof.
  induction 1 as [|c l l' _ IH|c d l|l1 l2 l3 _ IH1 _ IH2]; cbn [occurs]; [reflexivity|rewrite IH; reflexivity| |congruence].
  destruct (dec a c), (dec a d); reflexivity.
Qed.
Lemma occurs_map {A B} da db (f : A -> B) a l : (forall b, In b l -> f a = f b -> a = b) ->
  occurs db (f a) (map f l) = occurs da a l.
Proof.
  induction l as [|c l IH]; intros H; [reflexivity|]. cbn [map occurs].
  rewrite IH by (intros b Hb; apply H; right; exact Hb).
  destruct (db (f a) (f c)) as [E|E], (da a c) as [E2|E2]; try reflexivity; [|congruence].
  destruct E2. apply H; [left; reflexivity|exact E].
Qed.
Lemma emp_map {A B} da db (f : A -> B) l : (forall a b, In a l -> In b l -> f a = f b -> a = b) ->
  emp_entropy db (map f l) = emp_entropy da l.
Proof.
  intros H. unfold emp_entropy. rewrite map_map, map_length. f_equal. apply Rsum_ext. intros a Ha. unfold share.
  rewrite map_length, (occurs_map da db f a l); [reflexivity|]. intros b Hb. apply H; assumption.
Qed.

Theorem C61_order : forall A (eqb : A -> A -> bool) dec (l l' : list A) base, decides eqb dec -> Permutation l l' ->
  entropyd eqb l' base = entropyd eqb l base.
Proof.
  intros A eqb dec l l' base H Hp. rewrite !(C61_entropy A eqb dec _ base H).
  assert (E : emp_entropy dec l' = emp_entropy dec l); [|rewrite E; reflexivity].
  unfold emp_entropy. rewrite (Permutation_length Hp). f_equal.
  rewrite (Rsum_perm _ _ (Permutation_map (fun a => - ln (share dec l a)) Hp)). apply Rsum_ext. intros a _.
  unfold share. rewrite (occurs_perm dec a l l' Hp), (Permutation_length Hp). reflexivity.
Qed.
Print Assumptions C61_order.

Theorem C61_relabel : forall A B (ea : A -> A -> bool) (eb : B -> B -> bool) da db (f : A -> B) (l : list A) base,
  decides ea da -> decides eb db -> (forall a b, In a l -> In b l -> f a = f b -> a = b) ->
  entropyd eb (map f l) base = entropyd ea l base.
Proof.
  intros A B ea eb da db f l base Ha Hb Hf. rewrite (C61_entropy A ea da l base Ha), (C61_entropy B eb db _ base Hb).
  rewrite (emp_map da db f l Hf). reflexivity.
Qed.
Print Assumptions C61_relabel.

(* ------------------------------------------------------------------ *)
(** ** Information *)

Lemma surprise_map {A B} (eqb : B -> B -> bool) (g : A -> B) T : reflects eqb -> T <> [] ->
  surprise eqb (map g T) = Rsum (map (fun t => - ln (num (fun s => eqb (g t) (g s)) T)) T) / INR (length T) + ln (INR (length T)).
Proof.
  intros Heq HT. destruct T as [|t0 T0] eqn:ET; [congruence|]. rewrite <- ET. assert (Hn : 0 < INR (length T)).
  { apply (length_pos t0). rewrite ET. left. reflexivity. }
  unfold surprise. rewrite map_map, map_length.
  rewrite (Rsum_ext _ (fun t => - ln (num (fun s => eqb (g t) (g s)) T) + ln (INR (length T)) * 1)).
  - rewrite Rsum_plus, Rsum_scal, Rsum_ones. field. lra.
  - intros t Ht. unfold freq. rewrite map_length, num_map.
    assert (1 <= num (fun s => eqb (g t) (g s)) T) by (apply (num_pos _ T t Ht), reflects_refl, Heq).
    unfold Rdiv. rewrite ln_mult, ln_Rinv; [ring|lra|lra|apply Rinv_0_lt_compat; lra].
Qed.

Lemma combine_parts {A B C} (x : list A) (y : list B) (z : list C) : length x = length y -> length y = length z ->
  let T := combine x (combine y z) in
  length T = length z /\ map (fun t => snd (snd t)) T = z /\ map snd T = combine y z /\
  map (fun t => (fst t, snd (snd t))) T = combine x z /\ map (fun t => (fst t, fst (snd t))) T = combine x y /\
  map fst T = x /\ map (fun t => fst (snd t)) T = y.
Proof.
  cbv zeta. revert y z. induction x as [|a x IH]; intros [|b y] [|c z] H1 H2; try discriminate; [repeat split; reflexivity|].
  injection H1 as H1. injection H2 as H2. destruct (IH y z H1 H2) as [E1 [E2 [E3 [E4 [E5 [E6 E7]]]]]].
  cbn [combine map length fst snd]. rewrite E1, E2, E3, E4, E5, E6, E7. repeat split; reflexivity.
Qed.

Section Info.
  Context {A B C : Type} (ea : A -> A -> bool) (eb : B -> B -> bool) (ec : C -> C -> bool).
  Hypotheses (Ha : reflects ea) (Hb : reflects eb) (Hc : reflects ec).

  Lemma info_ratio (T : list (A * (B * C))) : T <> [] ->
    surprise (pair_eqb eb ec) (map snd T) + surprise (pair_eqb ea ec) (map (fun t => (fst t, snd (snd t))) T)
    - surprise (pair_eqb ea (pair_eqb eb ec)) (map (fun t => t) T) - surprise ec (map (fun t => snd (snd t)) T) =
    Rsum (map (fun t => - ln (ratio ea eb ec T t)) T) / INR (length T).
  Proof using Ha Hb Hc.
    intros HT. pose proof (reflects_pair eb ec Hb Hc) as Hbc.
    rewrite (surprise_map _ _ T Hbc HT), (surprise_map _ _ T (reflects_pair ea ec Ha Hc) HT),
      (surprise_map _ _ T (reflects_pair ea _ Ha Hbc) HT), (surprise_map _ _ T Hc HT).
    rewrite (Rsum_ext (fun t => - ln (ratio ea eb ec T t)) (fun t =>
      (- ln (num (fun s => pair_eqb eb ec (snd t) (snd s)) T) +
       - ln (num (fun s => pair_eqb ea ec (fst t, snd (snd t)) (fst s, snd (snd s))) T)) +
      -1 * (- ln (num (fun s => pair_eqb ea (pair_eqb eb ec) t s) T) + - ln (num (fun s => ec (snd (snd t)) (snd (snd s))) T)))).
    - rewrite Rsum_plus, Rsum_plus, Rsum_scal, Rsum_plus. unfold Rdiv. ring.
    - intros t Hin. destruct (counts_pos ea eb ec Ha Hb Hc T t Hin) as [H1 [H2 [H3 H4]]]. unfold ratio.
      change (num (fun s => pair_eqb eb ec (snd t) (snd s)) T) with (c_yz eb ec T (fst (snd t)) (snd (snd t))).
      change (num (fun s => pair_eqb ea ec (fst t, snd (snd t)) (fst s, snd (snd s))) T) with (c_xz ea ec T (fst t) (snd (snd t))).
      change (num (fun s => pair_eqb ea (pair_eqb eb ec) t s) T) with (c_xyz ea eb ec T (fst t) (fst (snd t)) (snd (snd t))).
      change (num (fun s => ec (snd (snd t)) (snd (snd s))) T) with (c_z ec T (snd (snd t))).
      assert (0 < / (c_xyz ea eb ec T (fst t) (fst (snd t)) (snd (snd t)) * c_z ec T (snd (snd t)))).
      { apply Rinv_0_lt_compat, Rmult_lt_0_compat; lra. }
      unfold Rdiv. rewrite ln_mult; [|apply Rmult_lt_0_compat; lra|assumption].
      rewrite ln_Rinv by (apply Rmult_lt_0_compat; lra). rewrite !ln_mult by lra. ring.
  Qed.
End Info.

(** The conditional information of three lists of equal length: the formula, in any base
    for which there is one; above base one it is not negative, and zero exactly when the
    first two coordinates are independent given the third. *)
Theorem C61_cmidd : forall A B C (ea : A -> A -> bool) (eb : B -> B -> bool) (ec : C -> C -> bool) da db dc
  (x : list A) (y : list B) (z : list C) base,
  decides ea da -> decides eb db -> decides ec dc -> length x = length y -> length y = length z -> 1 < base ->
  exists i, cmidd ea eb ec x y z base = Ok i /\
    i * ln base = emp_entropy (dec_pair da dc) (combine x z) + emp_entropy (dec_pair db dc) (combine y z)
                  - emp_entropy (dec_pair da (dec_pair db dc)) (combine x (combine y z)) - emp_entropy dc z /\
    0 <= i /\
    (i = 0 <-> forall a b c,
       (occurs (dec_pair da (dec_pair db dc)) (a, (b, c)) (combine x (combine y z)) * occurs dc c z)%nat =
       (occurs (dec_pair da dc) (a, c) (combine x z) * occurs (dec_pair db dc) (b, c) (combine y z))%nat).
Proof.
  intros A B C ea eb ec da db dc x y z base Da Db Dc L1 L2 Hbase.
  pose proof (decides_pair _ _ _ _ Db Dc) as Dbc. pose proof (decides_pair _ _ _ _ Da Dc) as Dac.
  pose proof (decides_pair _ _ _ _ Da Dbc) as Dabc.
  pose proof (decides_reflects _ _ Da) as Ha. pose proof (decides_reflects _ _ Db) as Hb. pose proof (decides_reflects _ _ Dc) as Hc.
  assert (Hlb : 0 < ln base) by (rewrite <- ln_1; apply ln_increasing; lra).
  unfold cmidd. rewrite (C61_entropy _ _ _ _ base Dbc), (C61_entropy _ _ _ _ base Dac), (C61_entropy _ _ _ _ base Dabc),
    (C61_entropy _ _ _ _ base Dc).
  rewrite (proj2 (Rltb_true 0 base)) by lra. destruct (Reqb base 1) eqn:E; [apply Reqb_true in E; lra|]. cbn [rbind].
  eexists. split; [reflexivity|]. split; [field; lra|].
  destruct (combine_parts x y z L1 L2) as [Tl [Tz [Tyz [Txz _]]]]. set (T := combine x (combine y z)) in *.
  match goal with |- 0 <= ?i /\ _ => set (v := i) end.
  assert (Ev : v = Rsum (map (fun t => - ln (ratio ea eb ec T t)) T) / INR (length T) / ln base).
  { destruct T as [|t0 T0] eqn:ET.
    - destruct z; [|discriminate Tl]. destruct y; [|discriminate L2]. destruct x; [|discriminate L1].
      unfold v, emp_entropy. simpl. unfold Rdiv. ring.
    - rewrite <- ET in *. assert (HT : T <> []) by (rewrite ET; discriminate).
      rewrite <- (info_ratio ea eb ec Ha Hb Hc T HT), map_id, Tz, Tyz, Txz.
      rewrite <- (emp_surprise _ _ _ Dc), <- (emp_surprise _ _ _ Dbc), <- (emp_surprise _ _ _ Dac), <- (emp_surprise _ _ _ Dabc).
      unfold v. rewrite <- ET. field. lra. }
  assert (Oz : forall c, INR (occurs dc c z) = c_z ec T c).
  { intros c. rewrite (occurs_num ec dc c z Dc), <- Tz, num_map. reflexivity. }
  assert (Oxz : forall a c, INR (occurs (dec_pair da dc) (a, c) (combine x z)) = c_xz ea ec T a c).
  { intros a c. rewrite (occurs_num _ _ (a, c) _ Dac), <- Txz, num_map. reflexivity. }
  assert (Oyz : forall b c, INR (occurs (dec_pair db dc) (b, c) (combine y z)) = c_yz eb ec T b c).
  { intros b c. rewrite (occurs_num _ _ (b, c) _ Dbc), <- Tyz, num_map. reflexivity. }
  assert (Oxyz : forall a b c, INR (occurs (dec_pair da (dec_pair db dc)) (a, (b, c)) T) = c_xyz ea eb ec T a b c).
  { intros a b c. rewrite (occurs_num _ _ (a, (b, c)) _ Dabc). reflexivity. }
  rewrite Ev. destruct (Nat.eq_dec (length T) 0) as [E0|E0].
  { destruct T; [|discriminate E0]. destruct z; [|discriminate Tl]. destruct y; [|discriminate L2]. destruct x; [|discriminate L1].
    simpl. split; [unfold Rdiv; lra|]. split; [intros _; reflexivity|intros _; unfold Rdiv; ring]. }
  assert (Hn : 0 < INR (length T)) by (apply lt_0_INR; lia).
  assert (Hi : 0 < / INR (length T) /\ 0 < / ln base) by (split; apply Rinv_0_lt_compat; assumption).
  pose proof (info_nonneg ea eb ec Ha Hb Hc T) as H0. split.
  { apply Rmult_le_pos; [apply Rmult_le_pos; lra|lra]. }
  transitivity (Rsum (map (fun t => - ln (ratio ea eb ec T t)) T) = 0).
  { split; intros Ez; [|rewrite Ez; unfold Rdiv; ring]. unfold Rdiv in Ez. apply Rmult_integral in Ez. destruct Ez as [Ez|Ez]; [|lra].
    apply Rmult_integral in Ez. destruct Ez as [Ez|Ez]; [exact Ez|lra]. }
  rewrite (info_zero ea eb ec Ha Hb Hc T). split.
  - intros H a b c. apply INR_eq. rewrite !mult_INR, Oz, Oxz, Oyz, Oxyz.
    assert (Hsub : forall f g : A * (B * C) -> bool, (forall s, f s = true -> g s = true) -> num g T = 0 -> num f T = 0).
    { intros f g Hfg Hg. unfold num. apply Rsum_zero. intros s Hs. destruct (f s) eqn:Ef; [|reflexivity].
      pose proof (num_pos g T s Hs (Hfg s Ef)). lra. }
    assert (Hex : forall f : A * (B * C) -> bool, num f T = 0 \/ exists s, In s T /\ f s = true).
    { intros f. destruct (existsb f T) eqn:Ef; [right; apply existsb_exists, Ef|left].
      unfold num. apply Rsum_zero. intros s Hs. destruct (f s) eqn:Efs; [|reflexivity].
      assert (existsb f T = true) by (apply existsb_exists; eauto). congruence. }
    destruct (Hex (fun s => ea a (fst s) && ec c (snd (snd s)))) as [Z1|[j [Hj Fj]]].
    { unfold c_xz. rewrite Z1. replace (c_xyz ea eb ec T a b c) with 0; [ring|]. symmetry. unfold c_xyz. eapply Hsub; [|exact Z1].
      intros s. cbv beta. destruct (ea a (fst s)), (eb b (fst (snd s))), (ec c (snd (snd s))); simpl; congruence. }
    destruct (Hex (fun s => eb b (fst (snd s)) && ec c (snd (snd s)))) as [Z1|[k [Hk Fk]]].
    { unfold c_yz. rewrite Z1. replace (c_xyz ea eb ec T a b c) with 0; [ring|]. symmetry. unfold c_xyz. eapply Hsub; [|exact Z1].
      intros s. cbv beta. destruct (ea a (fst s)), (eb b (fst (snd s))), (ec c (snd (snd s))); simpl; congruence. }
    apply andb_prop in Fj. destruct Fj as [F1 F2]. apply andb_prop in Fk. destruct Fk as [F3 F4].
    apply Ha in F1. apply Hc in F2. apply Hb in F3. apply Hc in F4.
    specialize (H j k Hj Hk). rewrite <- F1, <- F2, <- F3, <- F4 in H. apply H. reflexivity.
  - intros H j k _ _ _. specialize (H (fst j) (fst (snd k)) (snd (snd j))). apply (f_equal INR) in H.
    rewrite !mult_INR, Oz, Oxz, Oyz, Oxyz in H. exact H.
Qed.
Print Assumptions C61_cmidd.

Lemma all_same_entropy {A} dec (l : list A) : (forall a b, In a l -> In b l -> a = b) -> emp_entropy dec l = 0.
Proof.
  intros H. unfold emp_entropy. rewrite Rsum_zero; [unfold Rdiv; ring|]. intros a Ha. unfold share.
  rewrite (occurs_all dec a l) by (intros b Hb; apply H; assumption). unfold Rdiv.
  rewrite Rinv_r, ln_1 by (apply Rgt_not_eq, (length_pos a), Ha). ring.
Qed.

Lemma unit_parts {A} (x : list A) : combine x (repeat tt (length x)) = map (fun a => (a, tt)) x.
Proof. induction x as [|a x IH]; [reflexivity|]. cbn. rewrite IH. reflexivity. Qed.

(** The information of two lists of equal length: above base one it is not negative, at
    most either entropy, and zero exactly when the two coordinates are independent; the
    information of a list about itself is its entropy. *)
Theorem C61_midd : forall A B (ea : A -> A -> bool) (eb : B -> B -> bool) da db (x : list A) (y : list B) base,
  decides ea da -> decides eb db -> length x = length y -> 1 < base ->
  exists i hx hy, midd ea eb x y base = Ok i /\ entropyd ea x base = Ok hx /\ entropyd eb y base = Ok hy /\
    i * ln base = emp_entropy da x + emp_entropy db y - emp_entropy (dec_pair da db) (combine x y) /\
    0 <= i <= Rmin hx hy /\
    (i = 0 <-> forall a b, (occurs (dec_pair da db) (a, b) (combine x y) * length x)%nat = (occurs da a x * occurs db b y)%nat) /\
    midd ea ea x x base = Ok hx.
Proof.
  intros A B ea eb da db x y base Da Db L Hbase. pose proof (decides_pair _ _ _ _ Da Db) as Dab.
  assert (Hlb : 0 < ln base) by (rewrite <- ln_1; apply ln_increasing; lra).
  assert (Du : decides (fun _ _ : unit => true) (fun a b : unit => match a, b with tt, tt => left eq_refl end)).
  { intros [] []. reflexivity. }
  set (du := fun a b : unit => match a, b return {a = b} + {a <> b} with tt, tt => left eq_refl end) in *.
  set (u := repeat tt (length x)).
  assert (Lu : length y = length u) by (unfold u; rewrite repeat_length; symmetry; exact L).
  destruct (C61_cmidd A B unit ea eb (fun _ _ => true) da db du x y u base Da Db Du L Lu Hbase)
    as [i [_ [Ei [H0 Hz]]]].
  assert (Exu : combine x u = map (fun a => (a, tt)) x) by apply unit_parts.
  assert (Eyu : combine y u = map (fun a => (a, tt)) y) by (unfold u; rewrite L; apply unit_parts).
  assert (Exyu : combine x (combine y u) = map (fun p => (fst p, (snd p, tt))) (combine x y)).
  { rewrite Eyu. clear. revert y. induction x as [|a x IH]; intros [|b y]; cbn; [reflexivity..|]. rewrite IH. reflexivity. }
  assert (Eu : emp_entropy du u = 0) by (apply all_same_entropy; intros [] [] _ _; reflexivity).
  assert (Ex : emp_entropy (dec_pair da du) (combine x u) = emp_entropy da x).
  { rewrite Exu. apply emp_map. intros a b _ _ E. injection E. auto. }
  assert (Ey : emp_entropy (dec_pair db du) (combine y u) = emp_entropy db y).
  { rewrite Eyu. apply emp_map. intros a b _ _ E. injection E. auto. }
  assert (Exy : emp_entropy (dec_pair da (dec_pair db du)) (combine x (combine y u)) = emp_entropy (dec_pair da db) (combine x y)).
  { rewrite Exyu. apply emp_map. intros [a b] [a' b'] _ _ E. cbn in E. injection E. intros -> ->. reflexivity. }
  assert (Ent : forall D (e : D -> D -> bool) d l, decides e d -> entropyd e l base = Ok (emp_entropy d l / ln base)).
  { intros D e d l Hd. rewrite (C61_entropy D e d l base Hd), (proj2 (Rltb_true 0 base)) by lra.
    destruct (Reqb base 1) eqn:E; [apply Reqb_true in E; lra|reflexivity]. }
  rewrite Eu, Ex, Ey, Exy in Ei.
  exists i, (emp_entropy da x / ln base), (emp_entropy db y / ln base).
  assert (Emi : midd ea eb x y base = Ok i).
  { unfold midd. rewrite (Ent _ _ _ _ Dab), (Ent _ _ _ _ Da), (Ent _ _ _ _ Db). cbn [rbind]. f_equal.
    apply Rmult_eq_reg_r with (ln base); [|lra]. rewrite Ei. field. lra. }
  split; [exact Emi|]. split; [apply Ent, Da|]. split; [apply Ent, Db|]. split; [lra|]. split; [|split].
  - split; [exact H0|].
    assert (Lc : length (combine x y) = length x) by (rewrite combine_length, <- L; apply Nat.min_id).
    assert (Mx : map fst (combine x y) = x /\ map snd (combine x y) = y).
    { clear -L. revert y L. induction x as [|a x IH]; intros [|b y] L; try discriminate; [split; reflexivity|].
      injection L as L. destruct (IH y L) as [E1 E2]. cbn. rewrite E1, E2. split; reflexivity. }
    destruct Mx as [Mx My].
    assert (Hmono : forall D (d : forall a b : D, {a = b} + {a <> b}) (f : A * B -> D),
      emp_entropy d (map f (combine x y)) <= emp_entropy (dec_pair da db) (combine x y)).
    { intros D d f. unfold emp_entropy. rewrite map_map, map_length.
      destruct (combine x y) as [|p0 l0] eqn:El; [simpl; unfold Rdiv; lra|]. rewrite <- El in *. set (l := combine x y) in *.
      assert (Hn : 0 < INR (length l)) by (apply (length_pos p0); rewrite El; left; reflexivity).
      apply Rmult_le_compat_r; [left; apply Rinv_0_lt_compat, Hn|]. apply Rsum_mono. intros p Hp.
      assert (Hle : share (dec_pair da db) l p <= share d (map f l) (f p)).
      { unfold share. rewrite map_length. apply Rmult_le_compat_r; [left; apply Rinv_0_lt_compat, Hn|]. apply le_INR.
        clear. induction l as [|q l IH]; [apply Nat.le_refl|]. cbn [map occurs].
        destruct (dec_pair da db p q) as [->|]; destruct (d (f _) (f q)); try congruence; lia. }
      pose proof (share_range (dec_pair da db) p l Hp) as [Hp1 Hp2].
      destruct Hle as [Hle|Hle]; [|rewrite <- Hle; lra]. pose proof (ln_increasing _ _ Hp1 Hle). lra. }
    pose proof (Hmono A da fst) as B1. rewrite Mx in B1. pose proof (Hmono B db snd) as B2. rewrite My in B2.
    apply Rmin_glb; apply Rmult_le_reg_r with (ln base); try exact Hlb; rewrite Ei; unfold Rdiv;
      rewrite Rmult_assoc, Rinv_l by lra; lra.
  - rewrite Hz. split.
    + intros H a b. specialize (H a b tt). rewrite Exyu, Exu, Eyu in H.
      change (a, (b, tt)) with ((fun p : A * B => (fst p, (snd p, tt))) (a, b)) in H.
      rewrite (occurs_map (dec_pair da db)) in H by (intros [a' b'] _ E; cbn in E; injection E; intros -> ->; reflexivity).
      rewrite (occurs_map da _ (fun a => (a, tt))) in H by (intros a' _ E; injection E; auto).
      rewrite (occurs_map db _ (fun a => (a, tt))) in H by (intros a' _ E; injection E; auto).
      rewrite (occurs_all du tt u) in H by (intros []; reflexivity). unfold u in H. rewrite repeat_length in H. exact H.
    + intros H a b []. rewrite Exyu, Exu, Eyu.
      change (a, (b, tt)) with ((fun p : A * B => (fst p, (snd p, tt))) (a, b)).
      rewrite (occurs_map (dec_pair da db)) by (intros [a' b'] _ E; cbn in E; injection E; intros -> ->; reflexivity).
      rewrite (occurs_map da _ (fun a => (a, tt))) by (intros a' _ E; injection E; auto).
      rewrite (occurs_map db _ (fun a => (a, tt))) by (intros a' _ E; injection E; auto).
      rewrite (occurs_all du tt u) by (intros []; reflexivity). unfold u. rewrite repeat_length. apply H.
  - unfold midd. pose proof (decides_pair _ _ _ _ Da Da) as Daa. rewrite (Ent _ _ _ _ Daa), (Ent _ _ _ _ Da). cbn [rbind]. f_equal.
    assert (Exx : combine x x = map (fun a => (a, a)) x) by (clear; induction x as [|a x IH]; [reflexivity|]; cbn; rewrite IH; reflexivity).
    rewrite Exx, (emp_map da (dec_pair da da) (fun a => (a, a)) x) by (intros a b _ _ E; injection E; auto). ring.
Qed.
Print Assumptions C61_midd.

Lemma combine_swap {A B} (x : list A) (y : list B) : combine y x = map (fun p => (snd p, fst p)) (combine x y).
Proof. revert y. induction x as [|a x IH]; intros [|b y]; cbn; try reflexivity. rewrite IH. reflexivity. Qed.

(** The information is symmetric and obeys the chain rule, in every base and whether it
    succeeds or raises. *)
Theorem C61_symmetric : forall A B (ea : A -> A -> bool) (eb : B -> B -> bool) da db (x : list A) (y : list B) base,
  decides ea da -> decides eb db -> midd eb ea y x base = midd ea eb x y base.
Proof.
  intros A B ea eb da db x y base Da Db. unfold midd.
  assert (E : entropyd (pair_eqb eb ea) (combine y x) base = entropyd (pair_eqb ea eb) (combine x y) base).
  { rewrite combine_swap. apply (C61_relabel _ _ _ _ (dec_pair da db) (dec_pair db da)); try (apply decides_pair; assumption).
    intros [a b] [a' b'] _ _ H. injection H. intros -> ->. reflexivity. }
  rewrite E, (C61_entropy A ea da x base Da), (C61_entropy B eb db y base Db).
  destruct (Rltb 0 base), (Reqb base 1), (entropyd (pair_eqb ea eb) (combine x y) base); cbn [rbind]; try reflexivity.
  f_equal. ring.
Qed.
Print Assumptions C61_symmetric.

Theorem C61_chain : forall A B C (ea : A -> A -> bool) (eb : B -> B -> bool) (ec : C -> C -> bool)
  (x : list A) (y : list B) (z : list C) base i,
  midd ea (pair_eqb eb ec) x (combine y z) base = Ok i ->
  exists j k, midd ea ec x z base = Ok j /\ cmidd ea eb ec x y z base = Ok k /\ i = j + k.
Proof.
  intros A B C ea eb ec x y z base i H. unfold midd, cmidd in *.
  assert (Hall : forall D (e : D -> D -> bool) l, exists h, entropyd e l base = Ok h).
  { intros D e l. unfold entropyd, entropyfromprobs in *. rewrite per_base_err in *.
    destruct (Rltb 0 base); [|discriminate]. destruct (Reqb base 1); [discriminate|]. eauto. }
  destruct (Hall _ (pair_eqb ea (pair_eqb eb ec)) (combine x (combine y z))) as [h1 E1].
  destruct (Hall _ ea x) as [h2 E2]. destruct (Hall _ (pair_eqb eb ec) (combine y z)) as [h3 E3].
  destruct (Hall _ (pair_eqb ea ec) (combine x z)) as [h4 E4]. destruct (Hall _ ec z) as [h5 E5].
  rewrite E1, E2, E3 in *. rewrite E4, E5. cbn [rbind] in *. injection H as <-.
  do 2 eexists. split; [reflexivity|]. split; [reflexivity|]. ring.
Qed.
Print Assumptions C61_chain.

Lemma decZ : decides Z.eqb Z.eq_dec.
Proof.
  intros a b. destruct (Z.eq_dec a b) as [->|E]; [apply Z.eqb_refl|]. apply Z.eqb_neq. exact E.
Qed.

(** The hypotheses are met, and the information takes both kinds of value. *)
Example C61_info_ex : length [0; 0; 1; 1]%Z = length [0; 1; 0; 1]%Z /\
  (exists i, midd Z.eqb Z.eqb [0; 0; 1; 1]%Z [0; 1; 0; 1]%Z 2 = Ok i /\ i = 0) /\
  (exists i, midd Z.eqb Z.eqb [0; 0; 1]%Z [5; 5; 7]%Z 2 = Ok i /\ 0 < i) /\
  (exists i, cmidd Z.eqb Z.eqb Z.eqb [0; 1; 1]%Z [0; 1; 0]%Z [0; 0; 0]%Z 2 = Ok i /\ 0 < i).
Proof.
  split; [reflexivity|]. split; [|split].
  - destruct (C61_midd Z Z Z.eqb Z.eqb Z.eq_dec Z.eq_dec [0; 0; 1; 1]%Z [0; 1; 0; 1]%Z 2 decZ decZ eq_refl ltac:(lra))
      as [i [hx [hy [E [_ [_ [_ [_ [Hz _]]]]]]]]]. exists i. split; [exact E|]. apply Hz. intros a b. cbn [combine occurs length].
    repeat match goal with |- context [dec_pair ?p ?q ?r ?s] => destruct (dec_pair p q r s) | |- context [Z.eq_dec ?p ?q] => destruct (Z.eq_dec p q) end;
      try reflexivity; exfalso; subst; try congruence.
  - destruct (C61_midd Z Z Z.eqb Z.eqb Z.eq_dec Z.eq_dec [0; 0; 1]%Z [5; 5; 7]%Z 2 decZ decZ eq_refl ltac:(lra))
      as [i [hx [hy [E [_ [_ [_ [[H0 _] [Hz _]]]]]]]]]. exists i. split; [exact E|]. destruct H0 as [H0|H0]; [exact H0|].
    symmetry in H0. apply Hz with (a := 0%Z) (b := 5%Z) in H0. vm_compute in H0. discriminate.
  - destruct (C61_cmidd Z Z Z Z.eqb Z.eqb Z.eqb Z.eq_dec Z.eq_dec Z.eq_dec [0; 1; 1]%Z [0; 1; 0]%Z [0; 0; 0]%Z 2 decZ decZ decZ eq_refl eq_refl ltac:(lra))
      as [i [E [_ [H0 Hz]]]]. exists i. split; [exact E|]. destruct H0 as [H0|H0]; [exact H0|].
    symmetry in H0. apply Hz with (a := 0%Z) (b := 1%Z) (c := 0%Z) in H0. vm_compute in H0. discriminate.
Qed.

(** Lists of different lengths are not rejected, as they are by the continuous estimators:
    the joint entropy is that of the shorter list, and the "information" can be
    negative. *)
Theorem C61_midd_refuted : exists (x y : list Z) base i, 1 < base /\ midd Z.eqb Z.eqb x y base = Ok i /\ i < 0.
Proof.
  exists [0; 1; 1; 1; 1]%Z, [3; 3]%Z, 2.
  assert (Hlb : 0 < ln 2) by (rewrite <- ln_1; apply ln_increasing; lra).
  assert (Ent : forall D (e : D -> D -> bool) d l, decides e d -> entropyd e l 2 = Ok (emp_entropy d l / ln 2)).
  { intros D e d l Hd. rewrite (C61_entropy D e d l 2 Hd), (proj2 (Rltb_true 0 2)) by lra.
    destruct (Reqb 2 1) eqn:E; [apply Reqb_true in E; lra|reflexivity]. }
  unfold midd. rewrite (Ent _ _ _ _ decZ), (Ent _ _ _ _ decZ), (Ent _ _ _ _ (decides_pair _ _ _ _ decZ decZ)). cbn [rbind].
  eexists. split; [lra|]. split; [reflexivity|].
  rewrite (all_same_entropy Z.eq_dec [3; 3]%Z) by (intros a b [<-|[<-|[]]] [<-|[<-|[]]]; reflexivity).
  assert (E2 : emp_entropy (dec_pair Z.eq_dec Z.eq_dec) (combine [0; 1; 1; 1; 1]%Z [3; 3]%Z) = ln 2).
  { unfold emp_entropy, share. cbn [combine map length]. 
    replace (occurs (dec_pair Z.eq_dec Z.eq_dec) (0, 3)%Z [(0, 3); (1, 3)]%Z) with 1%nat by reflexivity.
    replace (occurs (dec_pair Z.eq_dec Z.eq_dec) (1, 3)%Z [(0, 3); (1, 3)]%Z) with 1%nat by reflexivity.
    simpl. replace (1 / (1 + 1)) with (/ 2) by lra. rewrite ln_Rinv by lra. lra. }
  rewrite E2.
  assert (E1 : emp_entropy Z.eq_dec [0; 1; 1; 1; 1]%Z = (ln 5 - 4 * (ln 4 - ln 5)) / 5).
  { unfold emp_entropy, share. cbn [map length].
    replace (occurs Z.eq_dec 0%Z [0; 1; 1; 1; 1]%Z) with 1%nat by reflexivity.
    replace (occurs Z.eq_dec 1%Z [0; 1; 1; 1; 1]%Z) with 4%nat by reflexivity.
    replace (INR 1) with 1 by reflexivity. replace (INR 4) with 4 by (simpl; lra). replace (INR 5) with 5 by (simpl; lra).
    unfold Rdiv at 2 3 4 5 6. rewrite !ln_mult, !ln_Rinv, ln_1 by lra. simpl. field. }
  rewrite E1. replace (ln 4) with (2 * ln 2) by (replace 4 with (2 * 2) by lra; rewrite ln_mult by lra; ring).
  (* ln 5 - 8/5 ln 2 < ln 2, as 5^5 < 2^13 *)
  assert (H5 : 5 * ln 5 < 13 * ln 2).
  { replace 5 with (INR 5) at 1 by (simpl; lra). replace 13 with (INR 13) by (simpl; lra).
    rewrite <- !ln_pow by lra. apply ln_increasing; [apply pow_lt; lra|]. simpl. lra. }
  replace (- (ln 2 / ln 2) + (ln 5 - 4 * (2 * ln 2 - ln 5)) / 5 / ln 2 + 0 / ln 2)
    with (- ((13 * ln 2 - 5 * ln 5) / (5 * ln 2))) by (field; lra).
  assert (0 < (13 * ln 2 - 5 * ln 5) / (5 * ln 2)) by (apply Rdiv_lt_0_compat; lra). lra.
Qed.
Print Assumptions C61_midd_refuted.

(* ------------------------------------------------------------------ *)
(** ** Divergence *)

(** The distance is that of the maximum norm: the least number that bounds the difference
    of every coordinate. *)
Theorem C61_distance : forall p q, length p = length q ->
  0 <= dist_inf p q /\
  (forall i a b, nth_error p i = Some a -> nth_error q i = Some b -> Rabs (a - b) <= dist_inf p q) /\
  (forall r, 0 <= r -> (forall i a b, nth_error p i = Some a -> nth_error q i = Some b -> Rabs (a - b) <= r) -> dist_inf p q <= r).
Proof.
  intros p. induction p as [|a p IH]; intros [|b q] L; try discriminate; cbn [dist_inf].
  - split; [lra|]. split; [intros [|i]; discriminate|auto].
  - injection L as L. destruct (IH q L) as [H0 [H1 H2]]. split; [|split].
    + apply Rle_trans with (Rabs (a - b)); [apply Rabs_pos|apply Rmax_l].
    + intros [|i] a' b' Ea Eb; cbn in Ea, Eb.
      * injection Ea as ->. injection Eb as ->. apply Rmax_l.
      * apply Rle_trans with (dist_inf p q); [apply (H1 i); assumption|apply Rmax_r].
    + intros r Hr H. apply Rmax_lub; [apply (H 0%nat); reflexivity|]. apply H2; [exact Hr|]. intros i a' b' Ea Eb.
      apply (H (S i)); assumption.
Qed.
Print Assumptions C61_distance.

(** The divergence, for [2 <= k]: with [r i] the distance from sample [i] of [x] to the
    [k]-th nearest of the other samples and [s i] to the [k]-th nearest sample of [xp], it
    is [ln (m / (n - 1)) + (d / n) * sum of ln (s i / r i)] in the given base, and a
    distance that is zero raises ValueError. *)
Theorem C61_kldiv : forall x xp k d r s base, (2 <= k)%nat -> (k < length x)%nat -> (k < length xp)%nat ->
  Forall (fun p => length p = d) x -> Forall (fun p => length p = d) xp ->
  Forall2 (fun p e => ranked x p k e) x r -> Forall2 (fun p e => ranked xp p (k - 1) e) x s ->
  0 < base -> base <> 1 ->
  (Forall (fun e => 0 < e) r -> Forall (fun e => 0 < e) s ->
     kldiv x xp k base = Ok (Fin ((ln (INR (length xp) / (INR (length x) - 1)) +
       INR d / INR (length x) * Rsum (map (fun rs => ln (snd rs / fst rs)) (combine r s))) / ln base))) /\
  (Exists (fun e => e = 0) r \/ Exists (fun e => e = 0) s -> kldiv x xp k base = Err ValueError).
Proof.
  intros x xp k d r s base Hk Hn Hm Wx Wp Hr Hs Hb1 Hb2.
  assert (Ex : width x = Ok d) by (destruct x; [cbn in Hn; lia|]; inversion Wx; subst; reflexivity).
  assert (Ep : width xp = Ok d) by (destruct xp; [cbn in Hm; lia|]; inversion Wp; subst; reflexivity).
  destruct (lengths x xp k r s Hr Hs) as [L1 L2].
  pose proof (lt_INR _ _ Hn) as G1. pose proof (lt_INR _ _ Hm) as G2. pose proof (le_INR _ _ Hk) as G3. cbn in G3.
  split.
  - intros P1 P2. rewrite (kldiv_value x xp k d r s Hk Hn Hm Ex Ep Hr Hs base P1 P2).
    unfold np_per_base, plog. rewrite (proj2 (Rltb_true 0 base) Hb1). cbn [rbind ediv].
    destruct (Reqb (ln base) 0) eqn:E.
    { apply Reqb_true in E. rewrite <- ln_1 in E. apply ln_inv in E; [congruence|lra|lra]. }
    f_equal. f_equal. unfold Rdiv at 1 4. f_equal.
    assert (Es : Rsum (map (fun rs => ln (snd rs / fst rs)) (combine r s)) = Rsum (map ln s) - Rsum (map ln r)).
    { assert (L : length r = length s) by congruence. clear -P1 P2 L. revert s P2 L.
      induction P1 as [|a r Ha P1 IH]; intros [|b s] P2 L; try discriminate; [simpl; ring|]. inversion P2 as [|c e H1 H2]; subst.
      injection L as L. cbn [combine map fst snd]. simpl. rewrite (IH s H2 L). unfold Rdiv. rewrite ln_mult, ln_Rinv; try lra.
      apply Rinv_0_lt_compat; exact Ha. }
    assert (En : ln (INR (length xp) / (INR (length x) - 1)) = ln (INR (length xp)) - ln (INR (length x) - 1)).
    { unfold Rdiv. rewrite ln_mult, ln_Rinv; [ring|lra|lra|apply Rinv_0_lt_compat; lra]. }
    rewrite Es, En. field. lra.
  - intros H. apply (kldiv_zero x xp k d r s Hk Hn Hm Ex Ep Hr Hs).
    destruct H as [H|H]; [left|right]; (eapply Exists_impl; [|exact H]); cbv beta; intros e ->; lra.
Qed.
Print Assumptions C61_kldiv.

(** Hence the divergence does not depend on the unit, the origin or the orientation of
    the axes: scaling all samples by the same factor and moving them together changes
    nothing. *)
Theorem C61_kldiv_affine : forall x xp k d base c t, (2 <= k)%nat -> (k < length x)%nat -> (k < length xp)%nat ->
  Forall (fun p => length p = d) x -> Forall (fun p => length p = d) xp -> c <> 0 ->
  kldiv (map (affine c t) x) (map (affine c t) xp) k base = kldiv x xp k base.
Proof.
  intros x xp k d base c t Hk Hn Hm Wx Wp Hc0.
  assert (Hc : 0 < Rabs c) by (apply Rabs_pos_lt, Hc0).
  assert (Ex : width x = Ok d) by (destruct x; [cbn in Hn; lia|]; inversion Wx; subst; reflexivity).
  assert (Ep : width xp = Ok d) by (destruct xp; [cbn in Hm; lia|]; inversion Wp; subst; reflexivity).
  assert (Ex' : width (map (affine c t) x) = Ok d).
  { destruct x as [|p x]; [discriminate|]. cbn in Ex |- *. rewrite affine_length. exact Ex. }
  assert (Ep' : width (map (affine c t) xp) = Ok d).
  { destruct xp as [|p xp]; [discriminate|]. cbn in Ep |- *. rewrite affine_length. exact Ep. }
  assert (Hex : forall z j, (j < length z)%nat -> exists r, Forall2 (fun p e => ranked z p j e) x r).
  { intros z j Hj. clear -Hj. induction x as [|p x [r IH]]; [exists []; constructor|].
    destruct (ranked_ex z p j Hj) as [e [He _]]. exists (e :: r). constructor; assumption. }
  destruct (Hex x k Hn) as [r Hr]. destruct (Hex xp (k - 1)%nat ltac:(lia)) as [s Hs].
  assert (Hsc : forall z j r, Forall2 (fun p e => ranked z p j e) x r ->
    Forall2 (fun p e => ranked (map (affine c t) z) p j e) (map (affine c t) x) (map (Rmult (Rabs c)) r)).
  { intros z j q H. clear -H Hc. induction H as [|p e x q Hpe H IH]; cbn [map]; constructor; [|exact IH].
    apply ranked_scaled; [exact Hc|intros; apply dist_affine|exact Hpe]. }
  pose proof (Hsc x k r Hr) as Hr'. pose proof (Hsc xp (k - 1)%nat s Hs) as Hs'.
  assert (Hn' : (k < length (map (affine c t) x))%nat) by (rewrite map_length; exact Hn).
  assert (Hm' : (k < length (map (affine c t) xp))%nat) by (rewrite map_length; exact Hm).
  destruct (lengths x xp k r s Hr Hs) as [L1 L2].
  assert (Hpos : forall q, Forall (fun e => 0 < e) q -> Forall (fun e => 0 < e) (map (Rmult (Rabs c)) q)).
  { intros q Hq. apply Forall_map. eapply Forall_impl; [|exact Hq]. cbv beta. intros e He. apply Rmult_lt_0_compat; assumption. }
  assert (Hneg : forall q, Exists (fun e => e <= 0) q -> Exists (fun e => e <= 0) (map (Rmult (Rabs c)) q)).
  { intros q Hq. apply Exists_exists in Hq. destruct Hq as [e [H1 H2]]. apply Exists_exists. exists (Rabs c * e).
    split; [apply in_map, H1|]. replace 0 with (Rabs c * 0) by ring. apply Rmult_le_compat_l; lra. }
  assert (Hln : forall q, Forall (fun e => 0 < e) q -> Rsum (map ln (map (Rmult (Rabs c)) q)) = INR (length q) * ln (Rabs c) + Rsum (map ln q)).
  { intros q Hq. induction Hq as [|e q He Hq IH]; [simpl; ring|]. cbn [map length]. rewrite S_INR. simpl. rewrite IH, ln_mult by assumption. ring. }
  assert (Hdec : forall q, Forall (fun e => 0 < e) q \/ Exists (fun e => e <= 0) q).
  { intros q. destruct (Forall_Exists_dec (fun e => 0 < e) (fun e => Rlt_dec 0 e) q) as [P|P]; [left; exact P|right].
    eapply Exists_impl; [|exact P]. cbv beta. intros e He. lra. }
  destruct (Hdec r) as [Pr|Pr]; [destruct (Hdec s) as [Ps|Ps]|].
  - rewrite (kldiv_value x xp k d r s Hk Hn Hm Ex Ep Hr Hs base Pr Ps).
    rewrite (kldiv_value _ _ k d _ _ Hk Hn' Hm' Ex' Ep' Hr' Hs' base (Hpos _ Pr) (Hpos _ Ps)).
    rewrite !map_length, (Hln r Pr), (Hln s Ps), L1, L2. f_equal. f_equal. pose proof (lt_0_INR (length x)) as H0.
    assert (0 < INR (length x)) by (apply H0; lia). field. lra.
  - rewrite (kldiv_zero x xp k d r s Hk Hn Hm Ex Ep Hr Hs base (or_intror Ps)).
    apply (kldiv_zero _ _ k d _ _ Hk Hn' Hm' Ex' Ep' Hr' Hs'). right. apply Hneg, Ps.
  - rewrite (kldiv_zero x xp k d r s Hk Hn Hm Ex Ep Hr Hs base (or_introl Pr)).
    apply (kldiv_zero _ _ k d _ _ Hk Hn' Hm' Ex' Ep' Hr' Hs'). left. apply Hneg, Pr.
Qed.
Print Assumptions C61_kldiv_affine.

(** The hypotheses are met, with all distances positive. *)
Example C61_kldiv_ex : exists r s, let x := [[0]; [1]; [3]] in let xp := [[10]; [20]; [40]] in
  Forall2 (fun p e => ranked x p 2 e) x r /\ Forall2 (fun p e => ranked xp p (2 - 1) e) x s /\
  Forall (fun e => 0 < e) r /\ Forall (fun e => 0 < e) s.
Proof.
  exists [3; 2; 3], [20; 19; 17]. cbv zeta.
  assert (Hlt : forall a b, a < b -> Rltb a b = true) by (intros; apply Rltb_true; assumption).
  assert (Hge : forall a b, b <= a -> Rltb a b = false).
  { intros a b H. destruct (Rltb a b) eqn:E; [apply Rltb_true in E; lra|reflexivity]. }
  assert (Hle : forall a b, a <= b -> Rleb a b = true) by (intros; apply Rleb_true; assumption).
  split; [|split; [|split; repeat (apply Forall_cons; [lra|]); apply Forall_nil]];
    (repeat (apply Forall2_cons; [split; cbn [filter dist_inf]|]); [..|apply Forall2_nil]);
    repeat match goal with |- context [Rmax ?a 0] => rewrite (Rmax_left a 0) by apply Rabs_pos end;
    repeat match goal with |- context [Rabs ?a] =>
      first [rewrite (Rabs_right a) by lra|rewrite (Rabs_left a) by lra] end;
    repeat match goal with
    | |- context [Rltb ?a ?b] => first [rewrite (Hlt a b) by lra|rewrite (Hge a b) by lra]
    | |- context [Rleb ?a ?b] => rewrite (Hle a b) by lra
    end; cbn [length]; try lia.
Qed.

(** One neighbour is refused by the tree rather than by an assertion: [k = 1] satisfies
    every assertion of kldiv, and raises IndexError whatever the data. *)
Theorem C61_kldiv_one : forall x xp d base, (1 < length x)%nat -> (1 < length xp)%nat ->
  Forall (fun p => length p = d) x -> Forall (fun p => length p = d) xp ->
  kldiv x xp 1 base = Err IndexError.
Proof.
  intros x xp d base Hn Hm Wx Wp.
  assert (Ex : width x = Ok d) by (destruct x; [cbn in Hn; lia|]; inversion Wx; subst; reflexivity).
  assert (Ep : width xp = Ok d) by (destruct xp; [cbn in Hm; lia|]; inversion Wp; subst; reflexivity).
  unfold kldiv. rewrite (proj2 (Z.leb_le _ _)) by lia. rewrite (proj2 (Z.leb_le _ _)) by lia. cbn [negb].
  rewrite Ex, Ep. cbn [rbind]. rewrite Nat.eqb_refl. cbn [negb].
  unfold plog. pose proof (lt_INR _ _ Hn) as H1. pose proof (lt_INR _ _ Hm) as H2. cbn in H1, H2.
  rewrite (proj2 (Rltb_true 0 _)) by lra. rewrite (proj2 (Rltb_true 0 _)) by lra. cbn [rbind].
  assert (E : exists l, rsequence (map (fun p => query x p (1 + 1) 1) x) = Ok l).
  { apply (rsequence_total (fun p => query x p (1 + 1) 1) x). intros p _. unfold query.
    change (Nat.eqb (1 + 1) 1) with false. change (1 <? 1 + 1)%nat with true. cbv iota.
    destruct (nth_error (rsort (map (dist_inf p) x)) 1) as [e|]; eauto. }
  destruct E as [l ->]. cbn [rbind]. destruct x as [|p x]; [cbn in Hn; lia|]. reflexivity.
Qed.
Print Assumptions C61_kldiv_one.

(* ------------------------------------------------------------------ *)
(** ** Information by neighbours *)

(** Moving all samples by the same vector does not change the entropy; with the same
    draws, for every digamma. *)
Theorem C61_entropy_shift : forall psi u x k base t,
  entropy psi u (map (affine 1 t) x) k base = entropy psi u x k base.
Proof.
  intros psi u x k base t. unfold entropy. rewrite jitter_affine, !map_length.
  assert (Ew : width (map (affine 1 t) x) = width x).
  { destruct x as [|p x]; [reflexivity|]. cbn. rewrite affine_length. reflexivity. }
  rewrite Ew. destruct (negb _); [reflexivity|].
  assert (Hd : forall p q, In p (jitter u x) -> In q (jitter u x) -> dist_inf (affine 1 t p) (affine 1 t q) = dist_inf p q).
  { intros p q _ _. rewrite dist_affine, Rabs_R1. ring. }
  pose proof (query_iso (affine 1 t) (fun p => p) (jitter u x) Hd (k + 1) k) as E. rewrite map_id in E. rewrite E. reflexivity.
Qed.
Print Assumptions C61_entropy_shift.

(** A list of points of the same dimension. *)
Definition rect (x : list (list R)) (n : nat) : Prop := Forall (fun p => length p = n) x.

Lemma zip_dist {A B} (x : list (list R)) (y : list B) (f : list R * B -> A) n (s s' : list R * B) : rect x n ->
  In s (combine x y) -> In s' (combine x y) -> length (fst s) = length (fst s').
Proof.
  intros H H1 H2. destruct s as [p q], s' as [p' q']. apply in_combine_l in H1, H2. cbn [fst].
  pose proof (proj1 (Forall_forall _ _) H p H1). pose proof (proj1 (Forall_forall _ _) H p' H2). cbv beta in *. congruence.
Qed.
Lemma zip_dist_r {A} (x : list A) (y : list (list R)) n (s s' : A * list R) : rect y n ->
  In s (combine x y) -> In s' (combine x y) -> length (snd s) = length (snd s').
Proof.
  intros H H1 H2. destruct s as [p q], s' as [p' q']. apply in_combine_r in H1, H2. cbn [snd].
  pose proof (proj1 (Forall_forall _ _) H q H1). pose proof (proj1 (Forall_forall _ _) H q' H2). cbv beta in *. congruence.
Qed.

(** The mutual information is symmetric, and unchanged when the samples of either side
    are moved. *)
Theorem C61_mi_symmetric : forall psi u v x y k base n m, rect x n -> rect y m ->
  mi psi v u y x k base = mi psi u v x y k base.
Proof.
  intros psi u v x y k base n m Rx Ry. unfold mi. rewrite (Nat.eqb_sym (length y) (length x)).
  destruct (Nat.eqb (length x) (length y)) eqn:EL; cbn [negb]; [|reflexivity]. apply Nat.eqb_eq in EL. rewrite <- EL.
  destruct (negb _); [reflexivity|]. rewrite !jitter_length, <- EL.
  apply (jitter_rect u x n) in Rx. apply (jitter_rect v y m) in Ry.
  set (x' := jitter u x) in *. set (y' := jitter v y) in *. 
  assert (Ez : zip2 y' x' = map (fun s => snd s ++ fst s) (combine x' y')).
  { unfold zip2. rewrite (combine_swap x' y'), map_map. reflexivity. }
  rewrite Ez. unfold zip2.
  rewrite (query_iso (fun s => snd s ++ fst s) (fun s => fst s ++ snd s) (combine x' y')).
  - destruct (rsequence _) as [dvec|]; [|reflexivity]. cbn [rbind].
    assert (Hl : length x' = length y') by (unfold x', y'; rewrite !jitter_length; exact EL).
    destruct (avgdigamma psi y' dvec) as [b|] eqn:Eb; destruct (avgdigamma psi x' dvec) as [a|] eqn:Ea; cbn [rbind].
    + unfold esub. rewrite (eadd_comm (eopp b)). reflexivity.
    + unfold avgdigamma in Ea, Eb. rewrite Hl in Ea. destruct (_ <? _)%nat; discriminate.
    + unfold avgdigamma in Ea, Eb. rewrite Hl in Ea. destruct (_ <? _)%nat; discriminate.
    + unfold avgdigamma in Ea, Eb. rewrite Hl in Ea. destruct (_ <? _)%nat; congruence.
  - intros s s' H1 H2. rewrite (dist_app (fst s)) by (apply (zip_dist x' y' (fun s => s) n); assumption).
    rewrite (dist_app (snd s)) by (apply (zip_dist_r x' y' m); assumption). apply Rmax_comm.
Qed.
Print Assumptions C61_mi_symmetric.

Theorem C61_mi_shift : forall psi u v x y k base n t, rect x n ->
  mi psi u v (map (affine 1 t) x) y k base = mi psi u v x y k base.
Proof.
  intros psi u v x y k base n t Rx. unfold mi. rewrite jitter_affine, !map_length.
  destruct (negb _); [reflexivity|]. destruct (negb _); [reflexivity|].
  apply (jitter_rect u x n) in Rx. set (x' := jitter u x) in *. set (y' := jitter v y) in *. 
  assert (Ez : zip2 (map (affine 1 t) x') y' = map (fun s => affine 1 t (fst s) ++ snd s) (combine x' y')).
  { unfold zip2. rewrite combine_map_l, map_map. reflexivity. }
  rewrite Ez. unfold zip2.
  rewrite (query_iso (fun s => affine 1 t (fst s) ++ snd s) (fun s => fst s ++ snd s) (combine x' y')).
  - destruct (rsequence _) as [dvec|]; [|reflexivity]. cbn [rbind].
    assert (Hd : forall p q, In p x' -> In q x' -> dist_inf (affine 1 t p) (affine 1 t q) = dist_inf p q).
    { intros p q _ _. rewrite dist_affine, Rabs_R1. ring. }
    pose proof (avg_iso (affine 1 t) (fun p => p) x' Hd psi dvec) as E. rewrite map_id in E. rewrite E. reflexivity.
  - intros s s' H1 H2. pose proof (zip_dist x' y' (fun s => s) n s s' Rx H1 H2) as L.
    rewrite !dist_app by (rewrite ?affine_length; exact L). rewrite dist_affine, Rabs_R1, Rmult_1_l. reflexivity.
Qed.
Print Assumptions C61_mi_shift.

Lemma zip3_swap (x y z : list (list R)) : length x = length y ->
  map (fun pq => fst pq ++ snd pq) (combine y (zip2 x z)) = map (fun s => fst (snd s) ++ (fst s ++ snd (snd s))) (combine x (combine y z)).
Proof.
  unfold zip2. revert y z. induction x as [|a x IH]; intros [|b y] z EL; cbn; try discriminate; try reflexivity.
  destruct z as [|c z]; cbn; [reflexivity|]. injection EL as EL. rewrite (IH y z EL). reflexivity.
Qed.

(** The conditional mutual information is symmetric in its first two arguments. *)
Theorem C61_cmi_symmetric : forall psi u v w x y z k base n m l, rect x n -> rect y m -> rect z l ->
  cmi psi v u w y x z k base = cmi psi u v w x y z k base.
Proof.
  intros psi u v w x y z k base n m l Rx Ry Rz. unfold cmi. rewrite (Nat.eqb_sym (length y) (length x)).
  destruct (Nat.eqb (length x) (length y)) eqn:EL; cbn [negb]; [|reflexivity]. apply Nat.eqb_eq in EL. rewrite <- EL.
  destruct (negb _); [reflexivity|].
  apply (jitter_rect u x n) in Rx. apply (jitter_rect v y m) in Ry. apply (jitter_rect w z l) in Rz.
  assert (EL' : length (jitter u x) = length (jitter v y)) by (rewrite !jitter_length; exact EL).
  set (x' := jitter u x) in *. set (y' := jitter v y) in *. set (z' := jitter w z) in *.
  set (L := combine x' (combine y' z')).
  assert (E1 : map (fun pq => fst pq ++ snd pq) (combine x' (zip2 y' z')) = map (fun s => fst s ++ (fst (snd s) ++ snd (snd s))) L).
  { unfold L, zip2. clear. generalize (combine y' z') as q. induction x' as [|a x' IH]; intros [|b q]; cbn; try reflexivity. rewrite IH. reflexivity. }
  assert (E2 : map (fun pq => fst pq ++ snd pq) (combine y' (zip2 x' z')) = map (fun s => fst (snd s) ++ (fst s ++ snd (snd s))) L).
  { apply zip3_swap. exact EL'. }
  rewrite E1, E2.
  rewrite (query_iso (fun s => fst (snd s) ++ (fst s ++ snd (snd s))) (fun s => fst s ++ (fst (snd s) ++ snd (snd s))) L).
  - destruct (rsequence _) as [dvec|]; [|reflexivity]. cbn [rbind].
    assert (Hl : length (zip2 x' z') = length (zip2 y' z')).
    { unfold zip2. rewrite !map_length, !combine_length, EL'. reflexivity. }
    destruct (avgdigamma psi (zip2 y' z') dvec) as [b|] eqn:Eb; destruct (avgdigamma psi (zip2 x' z') dvec) as [a|] eqn:Ea; cbn [rbind].
    + unfold esub. rewrite (eadd_comm (eopp b)). reflexivity.
    + unfold avgdigamma in Ea, Eb. rewrite Hl in Ea. destruct (_ <? _)%nat; discriminate.
    + unfold avgdigamma in Ea, Eb. rewrite Hl in Ea. destruct (_ <? _)%nat; discriminate.
    + unfold avgdigamma in Ea, Eb. rewrite Hl in Ea. destruct (_ <? _)%nat; congruence.
  - intros s s' H1 H2.
    assert (L1 : length (fst s) = length (fst s')) by (apply (zip_dist x' (combine y' z') (fun s => s) n); assumption).
    assert (L2 : length (fst (snd s)) = length (fst (snd s'))).
    { destruct s as [a q], s' as [a' q']. apply in_combine_r in H1, H2. cbn [snd]. apply (zip_dist y' z' (fun s => s) m); assumption. }
    rewrite !dist_app by assumption. rewrite !Rmax_assoc. f_equal. apply Rmax_comm.
Qed.
Print Assumptions C61_cmi_symmetric.

Example C61_mi_ex : rect [[1; 2]; [3; 4]; [5; 6]] 2 /\ rect [[0]; [1]; [2]] 1 /\
  exists i, mi (fun _ => Fin 1) (fun _ _ => 0) (fun _ _ => 0) [[1; 2]; [3; 4]; [5; 6]] [[0]; [1]; [2]] 2 2 = Ok i.
Proof.
  split; [repeat constructor|]. split; [repeat constructor|]. unfold mi.
  change (negb _) with false at 1. change (negb _) with false at 1. cbv zeta iota.
  set (x := jitter _ [[1; 2]; [3; 4]; [5; 6]]). set (y := jitter _ [[0]; [1]; [2]]).
  assert (Lz : length (zip2 x y) = 3%nat) by (unfold zip2, x, y; rewrite map_length, combine_length, !jitter_length; reflexivity).
  assert (E : exists l, rsequence (map (fun p => query (zip2 x y) p (2 + 1) 2) (zip2 x y)) = Ok l /\ length l = 3%nat).
  { assert (Hq : forall p, exists e, query (zip2 x y) p (2 + 1) 2 = Ok e).
    { intros p. unfold query. change (Nat.eqb (2 + 1) 1) with false. change (2 <? 2 + 1)%nat with true. cbv iota.
      destruct (nth_error (rsort (map (dist_inf p) (zip2 x y))) 2) as [e|]; eauto. }
    destruct (rsequence_total (fun p => query (zip2 x y) p (2 + 1) 2) (zip2 x y) (fun p _ => Hq p)) as [l E].
    exists l. split; [exact E|]. apply ImportanceFacts.rsequence_length in E. rewrite E, map_length. exact Lz. }
  destruct E as [dvec [-> Ld]]. cbn [rbind]. unfold avgdigamma.
  assert (Lx : length x = 3%nat) by (unfold x; apply jitter_length). assert (Ly : length y = 3%nat) by (unfold y; apply jitter_length).
  rewrite Lx, Ly, Ld. change (3 <? 3)%nat with false. cbv iota. cbn [rbind]. unfold np_per_base, plog.
  rewrite (proj2 (Rltb_true 0 2)) by lra. cbn [rbind]. eexists. reflexivity.
Qed.

(** Number of points within distance [d - 1e-15] of [p]. *)
Definition around (x : list (list R)) (p : list R) (d : R) : nat :=
  length (filter (fun q => if Rle_dec (dist_inf p q) (d - / 10 ^ 15) then true else false) x).
(** Mean digamma of those numbers, each point with its own distance. *)
Definition mean_psi (ps : nat -> R) (x : list (list R)) (r : list R) : R :=
  Rsum (map (fun pd => ps (around x (fst pd) (snd pd))) (combine x r)) / INR (length x).

Lemma avg_value ps x r : x <> [] -> length x = length r ->
  avgdigamma (fun n => Fin (ps n)) x (map Fin r) = Ok (Fin (mean_psi ps x r)).
Proof.
  intros Hx L. unfold avgdigamma. rewrite map_length, <- L, Nat.ltb_irrefl. f_equal.
  assert (Hn : Reqb (INR (length x)) 0 = false).
  { destruct (Reqb (INR (length x)) 0) eqn:E; [|reflexivity]. apply Reqb_true in E. apply (INR_eq _ 0) in E. destruct x; [congruence|discriminate]. }
  assert (H : forall M s c, length M = length s ->
    fold_left (fun avg pd => eadd avg (ediv (Fin (ps (length (filter (fun q => within (dist_inf (fst pd) q) (snd pd)) x))))
        (Fin (INR (length x))))) (combine M (map Fin s)) (Fin c) =
    Fin (c + Rsum (map (fun pd => ps (around x (fst pd) (snd pd))) (combine M s)) / INR (length x))).
  { induction M as [|p M IH]; intros [|e s] c E; try discriminate; [cbn; f_equal; unfold Rdiv; ring|].
    injection E as E. cbn [map combine fold_left fst snd]. unfold ediv at 2. rewrite Hn. cbn [eadd].
    rewrite (IH s _ E). f_equal.
    assert (Ea : length (filter (fun q => within (dist_inf p q) (Fin e)) x) = around x p e).
    { unfold around, within. reflexivity. }
    rewrite Ea. match goal with |- context [Rsum (?a :: ?b)] => change (Rsum (a :: b)) with (a + Rsum b) end.
    unfold Rdiv. ring. }
  rewrite (H x r 0 L). f_equal. unfold mean_psi. lra.
Qed.
Lemma np_per_base_ok v base : 0 < base -> base <> 1 -> np_per_base (Fin v) base = Ok (Fin (v / ln base)).
Proof.
  intros H1 H2. unfold np_per_base, plog. rewrite (proj2 (Rltb_true 0 base) H1). cbn [rbind ediv].
  destruct (Reqb (ln base) 0) eqn:E; [|reflexivity]. apply Reqb_true in E. rewrite <- ln_1 in E. apply ln_inv in E; [congruence|lra|lra].
Qed.

(** The entropy, for [1 <= k]: the estimator of Kozachenko and Leonenko over the jittered
    samples. *)
Theorem C61_entropy_value : forall ps u x k d r base, (1 <= k)%nat -> (k < length x)%nat -> rect x d ->
  Forall2 (fun p e => ranked (jitter u x) p k e) (jitter u x) r -> Forall (fun e => 0 < e) r -> 0 < base -> base <> 1 ->
  entropy (fun n => Fin (ps n)) u x k base =
  Ok (Fin ((ps (length x) - ps k + INR d * ln 2 + INR d * (Rsum (map ln r) / INR (length x))) / ln base)).
Proof.
  intros ps u x k d r base Hk Hn Rx Hr Pr Hb1 Hb2. unfold entropy. rewrite (proj2 (Z.leb_le _ _)) by lia. cbn [negb].
  assert (Ex : width x = Ok d) by (destruct x; [cbn in Hn; lia|]; inversion Rx; subst; reflexivity).
  rewrite Ex. cbn [rbind]. rewrite jitter_length.
  rewrite (rsequence_f2 _ (fun p => query (jitter u x) p (k + 1) k) Fin _ r Hr) by (intros p e He; apply query_ok; [lia|lia|exact He]).
  cbn [rbind]. assert (L : length r = length x) by (rewrite <- (f2_length _ _ _ Hr); apply jitter_length).
  rewrite (mean_log_ok r Pr) by (intros ->; cbn in L; lia). rewrite L. cbn [rbind emul_nat esub eadd eopp].
  apply np_per_base_ok; assumption.
Qed.
Print Assumptions C61_entropy_value.

(** The mutual information, for [1 <= k]: the first estimator of Kraskov, Stoegbauer and
    Grassberger over the jittered samples, with the distances in the joint space. *)
Theorem C61_mi_value : forall ps u v x y k r base, (1 <= k)%nat -> (k < length x)%nat -> length x = length y ->
  Forall2 (fun p e => ranked (zip2 (jitter u x) (jitter v y)) p k e) (zip2 (jitter u x) (jitter v y)) r -> 0 < base -> base <> 1 ->
  mi (fun n => Fin (ps n)) u v x y k base =
  Ok (Fin ((ps k + ps (length x) - mean_psi ps (jitter u x) r - mean_psi ps (jitter v y) r) / ln base)).
Proof.
  intros ps u v x y k r base Hk Hn L Hr Hb1 Hb2. unfold mi. rewrite L, Nat.eqb_refl, <- L. cbn [negb].
  rewrite (proj2 (Z.leb_le _ _)) by lia. cbn [negb]. rewrite jitter_length.
  rewrite (rsequence_f2 _ (fun p => query (zip2 (jitter u x) (jitter v y)) p (k + 1) k) Fin _ r Hr)
    by (intros p e He; apply query_ok; [lia|lia|exact He]).
  assert (Lr : length r = length x).
  { rewrite <- (f2_length _ _ _ Hr). unfold zip2. rewrite map_length, combine_length, !jitter_length, <- L. apply Nat.min_id. }
  cbn [rbind]. rewrite !avg_value; try (rewrite jitter_length; congruence);
    try (intros E; apply (f_equal (@length _)) in E; rewrite jitter_length in E; cbn in E; lia).
  cbn [rbind esub eadd eopp]. rewrite np_per_base_ok by assumption. f_equal. f_equal. f_equal. ring.
Qed.
Print Assumptions C61_mi_value.

(** The conditional one, when the third list is as long as the others. *)
Theorem C61_cmi_value : forall ps u v w x y z k r base, (1 <= k)%nat -> (k < length x)%nat -> length x = length y -> length z = length x ->
  let xz := zip2 (jitter u x) (jitter w z) in let yz := zip2 (jitter v y) (jitter w z) in let xyz := zip2 (jitter u x) yz in
  Forall2 (fun p e => ranked xyz p k e) xyz r -> 0 < base -> base <> 1 ->
  cmi (fun n => Fin (ps n)) u v w x y z k base =
  Ok (Fin ((ps k + mean_psi ps (jitter w z) r - mean_psi ps xz r - mean_psi ps yz r) / ln base)).
Proof.
  intros ps u v w x y z k r base Hk Hn L L2 xz yz xyz Hr Hb1 Hb2. unfold cmi. rewrite L, Nat.eqb_refl, <- L. cbn [negb].
  rewrite (proj2 (Z.leb_le _ _)) by lia. cbn [negb]. change (map (fun pq => fst pq ++ snd pq) (combine (jitter u x) (zip2 (jitter v y) (jitter w z)))) with xyz.
  rewrite (rsequence_f2 _ (fun p => query xyz p (k + 1) k) Fin _ r Hr) by (intros p e He; apply query_ok; [lia|lia|exact He]).
  fold xz yz.
  assert (Lz : length xz = length x /\ length yz = length x /\ length xyz = length x /\ length (jitter w z) = length x).
  { unfold xyz, xz, yz, zip2. rewrite !map_length, !combine_length, !map_length, !combine_length, !jitter_length, <- L, L2, !Nat.min_id. auto. }
  destruct Lz as [L3 [L4 [L5 L6]]].
  assert (Lr : length r = length x) by (rewrite <- (f2_length _ _ _ Hr); exact L5).
  cbn [rbind]. rewrite !avg_value; try congruence;
    try (intros E; apply (f_equal (@length _)) in E; rewrite ?L3, ?L4, ?L6 in E; cbn in E; lia).
  cbn [rbind esub eadd eopp]. rewrite np_per_base_ok by assumption. f_equal. f_equal. f_equal. ring.
Qed.
Print Assumptions C61_cmi_value.

(** The hypotheses are met: there are always such distances, and they are positive as soon
    as no jittered point occurs more than [k] times. *)
Lemma ranked_all x j l : (j < length x)%nat -> exists r, Forall2 (fun p e => ranked x p j e) l r.
Proof.
  intros Hj. induction l as [|p l [r IH]]; [exists []; constructor|].
  destruct (ranked_ex x p j Hj) as [e [He _]]. exists (e :: r). constructor; assumption.
Qed.
Example C61_value_ex : exists r, let x := jitter (fun _ _ => 0) [[0]; [1]; [3]] in
  Forall2 (fun p e => ranked x p 2 e) x r /\ Forall (fun e => 0 < e) r.
Proof.
  cbv zeta. set (x := jitter _ _).
  assert (Ex : x = [[0 + / 10 ^ 10 * 0]; [1 + / 10 ^ 10 * 0]; [3 + / 10 ^ 10 * 0]]) by reflexivity.
  destruct (ranked_all x 2 x) as [r Hr]; [rewrite Ex; cbn; lia|]. exists r. split; [exact Hr|].
  assert (HF : forall l r, Forall2 (fun p e => ranked x p 2 e) l r -> forall e, In e r -> exists p, In p l /\ ranked x p 2 e).
  { induction 1 as [|a b l s Hab H IH]; intros e []; [subst; exists a; split; [left; reflexivity|exact Hab]|].
    destruct (IH e H0) as [p [? ?]]. exists p. split; [right|]; assumption. }
  apply Forall_forall. intros e He. destruct (HF _ _ Hr _ He) as [p [Hp Hpe]].
  destruct (Rlt_dec 0 e) as [|N]; [assumption|]. exfalso. destruct Hpe as [_ H2].
  assert (Hf : (length (filter (fun q => Rleb (dist_inf p q) e) x) <= length (filter (fun q : list R => if Req_EM_T (nth 0 q 0%R) (nth 0 p 0%R) then true else false) x))%nat).
  { apply filter_incl_length. intros q Hq Hle. apply Rleb_true in Hle. destruct (Req_EM_T (nth 0 q 0%R) (nth 0 p 0%R)) as [|D]; [reflexivity|].
    exfalso. apply D. rewrite Ex in Hp, Hq.
    destruct Hp as [<-|[<-|[<-|[]]]]; destruct Hq as [<-|[<-|[<-|[]]]]; cbn [nth dist_inf] in *; try reflexivity;
      exfalso; revert Hle; rewrite Rmax_left by apply Rabs_pos;
      match goal with |- Rabs ?a <= _ -> _ => first [rewrite (Rabs_right a) by lra|rewrite (Rabs_left a) by lra] end; lra. }
  assert (Hle2 : (length (filter (fun q : list R => if Req_EM_T (nth 0 q 0%R) (nth 0 p 0%R) then true else false) x) <= 1)%nat); [|lia].
  rewrite Ex in Hp |- *. destruct Hp as [<-|[<-|[<-|[]]]]; cbn [filter nth];
    repeat match goal with |- context [Req_EM_T ?a ?b] => destruct (Req_EM_T a b); try lra end; cbn [length]; lia.
Qed.

(** A third list that is shorter is not rejected: the others are silently cut to its
    length. *)
Theorem C61_cmi_truncates : forall psi u v w x y z k base, length x = length y -> (length z <= length x)%nat -> (k < length z)%nat ->
  cmi psi u v w x y z k base = cmi psi u v w (firstn (length z) x) (firstn (length z) y) z k base.
Proof.
  intros psi u v w x y z k base L Hz Hk.
  assert (Hj : forall f q, (length z <= length q)%nat -> jitter f (firstn (length z) q) = firstn (length z) (jitter f q)).
  { intros f q Hq. unfold jitter. rewrite firstn_map, firstn_length, Nat.min_l by exact Hq. f_equal.
    rewrite combine_firstn. f_equal. generalize (length z) Hq 0%nat. clear. intros n Hq m.
    revert m q Hq. induction n as [|n IH]; intros m [|a q] Hq; cbn in *; try lia; try reflexivity. f_equal. apply IH. lia. }
  assert (Hc : forall A B (a : list A) (b : list B), combine (firstn (length b) a) b = combine a b).
  { clear. intros A B a b. revert a. induction b as [|c b IH]; intros [|e a]; cbn; try reflexivity. rewrite IH. reflexivity. }
  unfold cmi. rewrite !firstn_length, !Nat.min_l by lia. rewrite L, !Nat.eqb_refl, <- L. cbn [negb].
  rewrite !(proj2 (Z.leb_le _ _)) by lia. cbn [negb]. cbv zeta. rewrite !Hj by lia.
  assert (Ez : length (jitter w z) = length z) by apply jitter_length. rewrite <- Ez. unfold zip2.
  rewrite !Hc.
  assert (E3 : combine (firstn (length (jitter w z)) (jitter u x)) (map (fun pq => fst pq ++ snd pq) (combine (jitter v y) (jitter w z))) =
    combine (jitter u x) (map (fun pq => fst pq ++ snd pq) (combine (jitter v y) (jitter w z)))).
  { assert (Em : length (jitter w z) = length (map (fun pq => fst pq ++ snd pq) (combine (jitter v y) (jitter w z)))).
    { rewrite map_length, combine_length, !jitter_length. lia. }
    rewrite Em at 1. apply Hc. }
  rewrite E3. reflexivity.
Qed.
Print Assumptions C61_cmi_truncates.

(** Refuted: that every estimate is over at least [k + 1] points, as the assertion
    demands.  With a third list of one point and [k = 3], [cmi] still answers, whatever the
    data. *)
Theorem C61_cmi_refuted : forall ps u v w base, 0 < base -> base <> 1 -> exists x y z k,
  (length z <= k)%nat /\ (length z < length x)%nat /\
  cmi (fun n => Fin (ps n)) u v w x y z k base = Ok (Fin ((ps k - ps (length z)) / ln base)).
Proof.
  intros ps u v w base Hb1 Hb2. exists [[0]; [1]; [2]; [3]], [[0]; [1]; [2]; [3]], [[0]], 3%nat. split; [cbn; lia|]. split; [cbn; lia|].
  unfold cmi. cbn [length Nat.eqb negb Z.of_nat Pos.of_succ_nat Pos.succ]. cbn [Z.sub Z.add Z.opp Z.pos_sub Z.leb Z.compare Pos.compare Pos.compare_cont Pos.pred_double negb].
  unfold jitter, zip2. cbn [length seq combine map fst snd app rsequence].
  unfold query. cbn [Nat.eqb Nat.add Nat.ltb Nat.leb map rsort rinsert fold_right nth_error rsequence rbind].
  unfold avgdigamma. cbn [length Nat.ltb Nat.leb combine fold_left fst snd filter within INR].
  assert (E1 : forall a, ediv (Fin a) (Fin 1) = Fin a).
  { intros a. unfold ediv. destruct (Reqb 1 0) eqn:E; [apply Reqb_true in E; lra|]. f_equal. field. }
  rewrite !E1. cbn [rbind eadd esub eopp].
  rewrite np_per_base_ok by assumption. f_equal. f_equal. f_equal. lra.
Qed.
Print Assumptions C61_cmi_refuted.

(** *** The mixed estimator *)

(** The points with label [v]. *)
Definition labelled {P A} (dec : forall a b : A, {a = b} + {a <> b}) (x : list P) (y : list A) (v : A) : list P :=
  map fst (filter (fun p => if dec (snd p) v then true else false) (combine x y)).

(** micd: the overall entropy less the mean, over the samples, of the entropy of the points
    with the same label, where a label that occurs at most [k] times counts as overall. *)
Theorem C61_micd : forall P A (eqb : A -> A -> bool) dec (ent : option A -> list P -> res R) x y k H h,
  decides eqb dec -> (length y <= length x)%nat -> y <> [] ->
  ent None x = Ok H ->
  (forall v, (k < length (labelled dec x y v))%nat -> ent (Some v) (labelled dec x y v) = Ok (h v)) ->
  micd eqb ent x y k =
  Ok (H - Rsum (map (fun v => if (k <? length (labelled dec x y v))%nat then h v else H) y) / INR (length y)).
Proof.
  intros P A eqb dec ent x y k H h Hd L Hy EH Eh. unfold micd. rewrite EH. cbn [rbind].
  set (g := fun v => if (k <? length (labelled dec x y v))%nat then h v else H).
  match goal with |- fold_left ?f _ _ = _ => set (step := f) end.
  assert (Hstep : forall c v n, step (Ok c) (v, n) = Ok (c - INR n * (1 / INR (length y)) * g v)).
  { intros c v n. unfold step. cbn [rbind fst snd]. rewrite (proj2 (Nat.ltb_ge _ _)) by exact L. cbn [andb].
    assert (El : map fst (filter (fun py => eqb (snd py) v) (combine x y)) = labelled dec x y v).
    { unfold labelled. f_equal. apply filter_ext. intros [p b]. apply Hd. }
    cbv zeta. rewrite El. unfold g. destruct (k <? length (labelled dec x y v))%nat eqn:E.
    - apply Nat.ltb_lt in E. rewrite (proj2 (Z.leb_le _ _)) by lia. rewrite (Eh v E). reflexivity.
    - apply Nat.ltb_ge in E. rewrite (proj2 (Z.leb_gt _ _)) by lia. reflexivity. }
  assert (Hf : forall l c, fold_left step l (Ok c) = Ok (c - wsum g l / INR (length y))).
  { induction l as [|[v n] l IH]; intros c; cbn [fold_left].
    - f_equal. unfold wsum. simpl. unfold Rdiv. ring.
    - rewrite Hstep, IH. f_equal. unfold wsum. cbn [map fst snd].
      match goal with |- context [Rsum (?a :: ?b)] => change (Rsum (a :: b)) with (a + Rsum b) end. unfold Rdiv. ring. }
  rewrite Hf. rewrite (wsum_tally eqb); [reflexivity|].
  intros a b. rewrite Hd. destruct (dec a b); split; congruence.
Qed.
Print Assumptions C61_micd.

(** So it reports no information at all when no label occurs more than [k] times, even if
    the labels determine the points. *)
Corollary C61_micd_sparse : forall P A (eqb : A -> A -> bool) dec (ent : option A -> list P -> res R) x y k H,
  decides eqb dec -> (length y <= length x)%nat -> y <> [] -> ent None x = Ok H ->
  (forall v, (length (labelled dec x y v) <= k)%nat) ->
  micd eqb ent x y k = Ok 0.
Proof.
  intros P A eqb dec ent x y k H Hd L Hy EH Hs.
  rewrite (C61_micd P A eqb dec ent x y k H (fun _ => 0)); [|assumption..|intros v Hv; specialize (Hs v); lia].
  f_equal. rewrite (Rsum_ext _ (fun _ => H * 1)).
  - rewrite Rsum_scal, Rsum_ones. field. intros E. apply (INR_eq _ 0) in E. destruct y; [congruence|discriminate].
  - intros v _. rewrite (proj2 (Nat.ltb_ge _ _)) by apply Hs. ring.
Qed.
Print Assumptions C61_micd_sparse.

(** More labels than points: the first label beyond the points is looked up in vain. *)
Theorem C61_micd_long : forall P A (eqb : A -> A -> bool) dec (ent : option A -> list P -> res R) x y k,
  decides eqb dec -> (length x < length y)%nat -> (forall o p, exists h, ent o p = Ok h) ->
  micd eqb ent x y k = Err IndexError.
Proof.
  intros P A eqb dec ent x y k Hd L He. unfold micd. destruct (He None x) as [H ->]. cbn [rbind].
  set (step := fun (acc : res R) vn => _).
  assert (Hr : reflects eqb) by (intros a b; rewrite Hd; destruct (dec a b); split; congruence).
  assert (Hacc : forall l, fold_left step l (Err IndexError) = Err IndexError) by (induction l as [|a l IH]; [reflexivity|exact IH]).
  destruct (nth_error y (length x)) as [s|] eqn:Es; [|apply nth_error_None in Es; lia].
  assert (Hs : In s (map fst (tally eqb y))).
  { destruct (in_dec dec s (map fst (tally eqb y))) as [|N]; [assumption|]. exfalso.
    pose proof (wsum_tally eqb Hr (fun a => if dec a s then 1 else 0) y) as Hw.
    assert (Hz : wsum (fun a => if dec a s then 1 else 0) (tally eqb y) = 0).
    { unfold wsum. apply Rsum_zero. intros [a n] Ha. cbn [fst snd]. destruct (dec a s) as [->|]; [|ring].
      exfalso. apply N. apply in_map_iff. exists (s, n). auto. }
    assert (Hp : 0 < Rsum (map (fun a => if dec a s then 1 else 0) y)); [|lra].
    apply nth_error_In in Es. clear - Es. induction y as [|b y IH]; [destruct Es|]. cbn [map].
    match goal with |- context [Rsum (?a :: ?b)] => change (Rsum (a :: b)) with (a + Rsum b) end.
    assert (0 <= Rsum (map (fun a => if dec a s then 1 else 0) y)).
    { clear. induction y as [|b y IH]; [cbn; lra|]. cbn [map].
      match goal with |- context [Rsum (?a :: ?b)] => change (Rsum (a :: b)) with (a + Rsum b) end. destruct (dec b s); lra. }
    destruct Es as [->|Es]; [destruct (dec s s); [lra|congruence]|]. specialize (IH Es). destruct (dec b s); lra. }
  revert Hs. generalize (tally eqb y) H. induction l as [|[v n] l IH]; intros c Hs; [destruct Hs|]. cbn [fold_left].
  assert (Hcase : step (Ok c) (v, n) = Err IndexError \/ (v <> s /\ exists c', step (Ok c) (v, n) = Ok c')).
  { unfold step at 1 2. cbn [rbind fst snd]. rewrite (proj2 (Nat.ltb_lt _ _) L). cbn [andb].
    destruct (existsb _ _) eqn:Ex; [left; reflexivity|]. right. split.
    - intros ->. assert (Et : existsb (fun i => match nth_error y i with Some s0 => eqb s0 s | None => false end) (seq (length x) (length y - length x)) = true);
        [|congruence]. apply existsb_exists. exists (length x). split; [apply in_seq; lia|]. rewrite Es. apply Hr. reflexivity.
    - cbv zeta. destruct (Z.leb _ _); [|eexists; reflexivity].
      destruct (He (Some v) (map fst (filter (fun py => eqb (snd py) v) (combine x y)))) as [hh ->]. eexists. reflexivity. }
  destruct Hcase as [E|[Hv [c' E]]]; rewrite E; [apply Hacc|]. apply IH. destruct Hs as [E2|Hs]; [cbn in E2; congruence|exact Hs].
Qed.
Print Assumptions C61_micd_long.

Example C61_micd_ex : let x := [10; 20; 30]%Z in let y := [1; 2; 1]%Z in
  labelled Z.eq_dec x y 1%Z = [10; 30]%Z /\ labelled Z.eq_dec x y 2%Z = [20]%Z /\
  micd Z.eqb (fun _ p => Ok (INR (length p))) x y 1 = Ok (3 - (2 + 3 + 2) / 3) /\
  micd Z.eqb (fun _ p => Ok (INR (length p))) x y 2 = Ok 0 /\
  micd Z.eqb (fun _ p => Ok (INR (length p))) x (y ++ [7]%Z) 2 = Err IndexError.
Proof.
  assert (Hd : decides Z.eqb Z.eq_dec) by (intros a b; destruct (Z.eqb_spec a b); destruct (Z.eq_dec a b); congruence).
  cbv zeta. split; [reflexivity|]. split; [reflexivity|]. split; [|split].
  - rewrite (C61_micd Z Z Z.eqb Z.eq_dec _ _ _ 1 (INR 3) (fun v => INR (length (labelled Z.eq_dec [10; 20; 30]%Z [1; 2; 1]%Z v))) Hd);
      [|cbn; lia|discriminate|reflexivity|reflexivity]. f_equal. cbn -[INR]. simpl. lra.
  - apply (C61_micd_sparse Z Z Z.eqb Z.eq_dec) with (H := INR 3); [exact Hd|cbn; lia|discriminate|reflexivity|].
    intros v. unfold labelled. cbn [combine filter snd]. destruct (Z.eq_dec 1 v), (Z.eq_dec 2 v); cbn; lia.
  - apply (C61_micd_long Z Z Z.eqb Z.eq_dec); [exact Hd|cbn; lia|eexists; reflexivity].
Qed.
