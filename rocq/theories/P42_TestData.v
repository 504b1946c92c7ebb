(** C66: the generators of test data make what they say: partitions with the clusters asked for,
    and columns whose values belong to their class. *)
From Coq Require Import Permutation.
From Verif Require Import LogSpaceFacts P34_Grids TestData.
Local Open Scope R_scope.

(* ------------------------------------------------------------------ *)
(** ** Specification *)
(** Values of a class. *)
Definition belongs (k : gclass) (x : R) : Prop :=
  match k with
  | GBernoulli => x = 0 \/ x = 1
  | GBeta => 0 < x < 1
  | GCategorical n => exists j, x = INR j /\ (Z.of_nat j < n)%Z
  | GExponential => 0 <= x
  | GGeometric | GPoisson => exists j, x = INR j
  | GLognormal => 0 < x
  | GNormal => True
  | GTrunc l h => l <= x <= h
  | GVonmises => 0 <= x <= 2 * PI
  | GOther => False
  end.
(** What numpy answers to a request it takes. *)
Definition answers (q : request) (x : R) : Prop :=
  match q with
  | QBeta _ _ => 0 < x < 1
  | QNormal _ _ => True
  | QVonmises _ _ => - PI <= x <= PI
  | QPoisson _ => exists j, x = INR j
  | QExponential _ => 0 <= x
  | QGeometric _ => exists j, x = INR (S j)
  | QLognormal _ _ => 0 < x
  | QUniform => 0 <= x < 1
  end.
Definition honest (g : source) : Prop :=
  (forall q r i, takes q = true -> answers q (ask g q r i)) /\ (forall r, draw_ok (flip g r)) /\
  (forall k a c, (0 < k)%nat -> 0 < a -> length (dirichlet g k a c) = k /\ Forall (fun x => 0 <= x) (dirichlet g k a c) /\ Rsum (dirichlet g k a c) = 1) /\
  (forall l, Permutation l (shuffle g l)).
(** A class with valid arguments, other than the truncated normal. *)
Definition ordinary (k : gclass) : Prop := match k with GCategorical n => (1 <= n)%Z | GTrunc _ _ | GOther => False | _ => True end.
(** [K] is one more than the largest label. *)
Definition clusters (Zs : list nat) (K : nat) : Prop := (exists c, In c Zs /\ S c = K) /\ forall c, In c Zs -> (c < K)%nat.
(** [K] points in steps from (1 - .85 sep) / 2 to (1 + .85 sep) / 2. *)
Definition graded (K : nat) (sep : R) (c : nat) : R :=
  if (K =? 1)%nat then 1 / 2 - 85 / 100 * sep / 2 else 1 / 2 + 85 / 100 * sep * (INR c / INR (K - 1) - 1 / 2).
(** Weights that the partition takes. *)
Definition weighty (w : list R) : Prop := Forall (fun x => 0 < x) w /\ Rabs (Rsum w - 1) <= 1 / 100000000 + 1 / 100000.

(* ------------------------------------------------------------------ *)
(** ** Loops *)
Lemma rows_ok (P : nat -> nat -> R -> Prop) f Zs : (forall r c, In c Zs -> exists x, f r c = Ok x /\ P r c x) -> forall r0,
  exists l, rows f r0 Zs = Ok l /\ length l = length Zs /\ forall j c, nth_error Zs j = Some c -> exists x, nth_error l j = Some x /\ P (r0 + j)%nat c x.
Proof.
  induction Zs as [|c Zs IH]; intros H r0; [exists []; repeat split; intros [|j] c; discriminate|].
  destruct (H r0 c (or_introl eq_refl)) as [x [Ex Px]]. destruct (IH (fun r d Hd => H r d (or_intror Hd)) (S r0)) as [l [El [Ll Q]]].
  exists (x :: l). cbn. rewrite Ex. cbn. rewrite El. split; [reflexivity|]. split; [cbn; rewrite Ll; reflexivity|]. intros [|j] d Hd; cbn in Hd.
  - injection Hd as <-. exists x. rewrite Nat.add_0_r. auto.
  - destruct (Q j d Hd) as [y [Ey Py]]. exists y. split; [exact Ey|]. replace (r0 + S j)%nat with (S r0 + j)%nat by lia. exact Py.
Qed.
Lemma rows_forall (P : nat -> nat -> R -> Prop) (B : R -> Prop) l Zs r0 : length l = length Zs ->
  (forall j c, nth_error Zs j = Some c -> exists x, nth_error l j = Some x /\ P (r0 + j)%nat c x) -> (forall r c x, P r c x -> B x) -> Forall B l.
Proof.
  intros L H HB. apply Forall_forall. intros x Hx. apply In_nth_error in Hx. destruct Hx as [j Hj].
  destruct (nth_error Zs j) as [c|] eqn:E; [|apply nth_error_None in E; assert (j < length l)%nat by (apply nth_error_Some; congruence); lia].
  destruct (H j c E) as [y [Ey Py]]. rewrite Hj in Ey. injection Ey as <-. eapply HB, Py.
Qed.
Lemma top_ok Zs : Zs <> [] -> exists K, top Zs = Ok K /\ clusters Zs K.
Proof.
  destruct Zs as [|z Zs]; intros H; [congruence|]. eexists. split; [reflexivity|].
  assert (G : forall l z, (In (fold_left Nat.max l z) (z :: l)) /\ forall c, In c (z :: l) -> (c <= fold_left Nat.max l z)%nat).
  { clear. induction l as [|a l IH]; intros z; cbn; [split; [auto|intros c [->|[]]; lia]|]. destruct (IH (Nat.max z a)) as [I1 I2]. split.
    - destruct I1 as [E|E]; [destruct (Nat.max_spec z a) as [[_ M]|[_ M]]; rewrite M in *; auto|auto].
    - intros c [->|[->|Hc]]; [| |apply I2; right; exact Hc]; (etransitivity; [|apply I2; left; reflexivity]); lia. }
  destruct (G Zs z) as [G1 G2]. split; [exists (fold_left Nat.max Zs z); auto|]. intros c Hc. specialize (G2 c Hc). lia.
Qed.
Lemma clusters_fun Zs K K' : clusters Zs K -> clusters Zs K' -> K = K'.
Proof. intros [[c [A1 <-]] A2] [[d [B1 <-]] B2]. specialize (A2 d B1). specialize (B2 c A1). lia. Qed.
Lemma at_ok {A} (l : list A) i : (i < length l)%nat -> exists a, at_ l i = Ok a /\ nth_error l i = Some a.
Proof. intros H. unfold at_. destruct (nth_error l i) as [a|] eqn:E; [eauto|]. apply nth_error_None in E. lia. Qed.
Lemma asks_ok g q r i : takes q = true -> asks g q r i = Ok (ask g q r i).
Proof. intros H. unfold asks. rewrite H. reflexivity. Qed.

Lemma linspace_point a b n i : (i < n)%nat -> nth_error (linspace a b n) i = Some (if (n =? 1)%nat then a else a + INR i * ((b - a) / INR (n - 1))).
Proof.
  intros H. unfold linspace. rewrite nth_error_map. replace (nth_error (seq 0 n) i) with (Some i); [reflexivity|]. symmetry.
  rewrite (nth_error_nth' (seq 0 n) 0%nat) by (rewrite seq_length; exact H). rewrite seq_nth by exact H. reflexivity.
Qed.
Lemma grade_point K sep c : (c < K)%nat ->
  nth_error (linspace (5 / 10 - 5 / 10 * sep * (85 / 100)) (5 / 10 + 5 / 10 * sep * (85 / 100)) K) c = Some (graded K sep c).
Proof.
  intros H. rewrite linspace_point by exact H. f_equal. unfold graded. destruct (Nat.eqb_spec K 1) as [E|E]; [field|].
  assert (0 < INR (K - 1)) by (apply lt_0_INR; lia). field. lra.
Qed.
Lemma graded_between K sep c : 0 < sep <= 1 -> (c < K)%nat -> 5 / 100 < graded K sep c < 95 / 100.
Proof.
  intros Hs Hc. unfold graded. destruct (Nat.eqb_spec K 1) as [E|E]; [lra|]. assert (Hp : 0 < INR (K - 1)) by (apply lt_0_INR; lia).
  assert (Ht : 0 <= INR c / INR (K - 1) <= 1).
  { split; [apply Rmult_le_pos; [apply pos_INR|apply Rlt_le, Rinv_0_lt_compat; exact Hp]|]. apply Rmult_le_reg_r with (INR (K - 1)); [exact Hp|].
    unfold Rdiv. rewrite Rmult_assoc, Rinv_l, Rmult_1_r, Rmult_1_l by lra. apply le_INR. lia. }
  set (t := INR c / INR (K - 1)) in *. assert (- (1 / 2) <= sep * (t - 1 / 2) <= 1 / 2) by (split; nra). nra.
Qed.
Lemma npdf_pos x : 0 < npdf x.
Proof.
  unfold npdf. apply Rdiv_lt_0_compat; [apply exp_pos|]. apply Rmult_lt_0_compat; [|lra]. apply sqrt_lt_R0. pose proof PI_RGT_0. lra.
Qed.

(* ------------------------------------------------------------------ *)
(** ** Columns *)
(** The request for a row of cluster [c] among [K], and what is made of the answer. *)
Definition law (k : gclass) (K : nat) (sep : R) (c : nat) (q : request) (f : R -> R) : Prop :=
  match k with
  | GNormal => q = QNormal (5 * sep * INR c) 1 /\ f = (fun x => x)
  | GPoisson => q = QPoisson (1 + 4 * sep * INR c) /\ f = (fun x => x)
  | GExponential => q = QExponential (1 + 4 * sep * INR c) /\ f = (fun x => x)
  | GLognormal => let s := Rmin sep (9 / 10) in q = QLognormal (9 / 10 * s ^ 2 * INR c) ((1 - s) / (INR c + 1)) /\ f = (fun x => x)
  | GGeometric => q = QGeometric (graded K sep c) /\ f = (fun x => x - 1)
  | GBeta => exists a b, q = QBeta a b /\ 0 < a /\ 0 < b /\ a / (a + b) = graded K sep c /\ f = (fun x => x)
  | GVonmises => exists conc, q = QVonmises (2 * PI * INR c / INR K) conc /\ 0 < conc /\ conc = 25 * (Rpower sep (3 / 4)) ^ 2 * INR K ^ 2 / (4 * PI ^ 2) /\ f = (fun x => x + PI)
  | GBernoulli => q = QUniform /\ f = (fun u => if Rltb u (if (K =? 1)%nat then 0 else sep * INR c / INR (K - 1)) then 1 else 0)
  | _ => False
  end.
Lemma Rdiv_INR c K : INR c * (2 * PI / INR K) = 2 * PI * INR c / INR K.
Proof. unfold Rdiv. ring. Qed.

Lemma law_rows g k Zs sep K : honest g -> Zs <> [] -> 0 < sep <= 1 -> clusters Zs K -> ordinary k -> (forall n, k <> GCategorical n) ->
  exists T, gen_column g k Zs sep = Ok T /\ length T = length Zs /\
    forall j c, nth_error Zs j = Some c -> exists x, nth_error T j = Some x /\ exists q f, law k K sep c q f /\ takes q = true /\ x = f (ask g q j 0).
Proof.
  intros Hg Hne Hs HK Ho Hcat. destruct (top_ok Zs Hne) as [K' [ET HK']]. assert (K' = K) as -> by (apply (clusters_fun Zs); assumption).
  set (P := fun r c x => exists q f, law k K sep c q f /\ takes q = true /\ x = f (ask g q r 0)).
  change (exists T, gen_column g k Zs sep = Ok T /\ length T = length Zs /\ forall j c, nth_error Zs j = Some c -> exists x, nth_error T j = Some x /\ P (0 + j)%nat c x).
  destruct HK as [[c0 [Hc0 Ec0]] Hlt]. assert (HKp : 0 < INR K) by (apply lt_0_INR; lia). pose proof PI_RGT_0 as Hpi.
  destruct k; try contradiction; try (exfalso; eapply Hcat; reflexivity); cbn [gen_column].
  - unfold gen_bernoulli. rewrite ET. cbn [rbind]. apply rows_ok. intros r c Hc. unfold at_. rewrite linspace_point by (apply Hlt, Hc). cbn [rbind]. unfold asks. cbn [takes rbind].
    eexists. split; [reflexivity|]. exists QUniform. eexists. split; [split; reflexivity|]. split; [reflexivity|]. cbn beta.
    destruct (K =? 1)%nat; [reflexivity|]. replace (0 + INR c * ((sep - 0) / INR (K - 1))) with (sep * INR c / INR (K - 1)) by (unfold Rdiv; ring). reflexivity.
  - unfold gen_beta. rewrite ET. cbn [rbind]. apply rows_ok. intros r c Hc. unfold at_. rewrite grade_point by (apply Hlt, Hc). cbn [rbind].
    pose proof (graded_between K sep c Hs (Hlt c Hc)) as Gb. set (a := graded K sep c) in *. pose proof (npdf_pos a) as Np.
    assert (A1 : 0 < a * (20 * npdf a)) by (apply Rmult_lt_0_compat; lra). assert (A2 : 0 < (1 - a) * 20 * npdf a) by (apply Rmult_lt_0_compat; lra).
    assert (Tk : takes (QBeta (a * (20 * npdf a)) ((1 - a) * 20 * npdf a)) = true) by (cbn; apply andb_true_iff; split; apply Rltb_true; assumption).
    rewrite asks_ok by exact Tk. eexists. split; [reflexivity|]. exists (QBeta (a * (20 * npdf a)) ((1 - a) * 20 * npdf a)), (fun x => x). split; [|split; [exact Tk|reflexivity]].
    exists (a * (20 * npdf a)), ((1 - a) * 20 * npdf a). split; [reflexivity|]. split; [exact A1|]. split; [exact A2|]. split; [|reflexivity]. fold a. field. lra.
  - unfold gen_exponential. apply rows_ok. intros r c Hc. pose proof (pos_INR c) as Pc. assert (Tk : takes (QExponential (INR c * (4 * sep) + 1)) = true) by (cbn; apply Rltb_true; nra).
    rewrite asks_ok by exact Tk. eexists. split; [reflexivity|]. exists (QExponential (INR c * (4 * sep) + 1)), (fun x => x). split; [|split; [exact Tk|reflexivity]]. split; [f_equal; ring|reflexivity].
  - unfold gen_geometric. rewrite ET. cbn [rbind]. apply rows_ok. intros r c Hc. unfold at_. rewrite grade_point by (apply Hlt, Hc). cbn [rbind].
    pose proof (graded_between K sep c Hs (Hlt c Hc)) as Gb. assert (Tk : takes (QGeometric (graded K sep c)) = true) by (cbn; apply andb_true_iff; split; [apply Rltb_true; lra|apply Rleb_true; lra]).
    rewrite asks_ok by exact Tk. eexists. split; [reflexivity|]. exists (QGeometric (graded K sep c)), (fun x => x - 1). split; [split; reflexivity|]. split; [exact Tk|reflexivity].
  - unfold gen_lognormal. apply rows_ok. intros r c Hc. pose proof (pos_INR c) as Pc.
    assert (Es : (if Rltb (9 / 10) sep then 9 / 10 else sep) = Rmin sep (9 / 10)).
    { unfold Rmin. destruct (Rltb (9 / 10) sep) eqn:E; [apply Rltb_true in E|apply Rltb_false in E]; destruct (Rle_dec sep (9 / 10)); lra. }
    rewrite Es. pose proof (Rmin_r sep (9 / 10)) as Rm. set (s := Rmin sep (9 / 10)) in *.
    assert (Tk : takes (QLognormal (INR c * (9 / 10 * s ^ 2)) ((1 - s) / (INR c + 1))) = true) by (cbn; apply Rltb_true, Rdiv_lt_0_compat; lra).
    rewrite asks_ok by exact Tk. eexists. split; [reflexivity|]. exists (QLognormal (INR c * (9 / 10 * s ^ 2)) ((1 - s) / (INR c + 1))), (fun x => x). split; [|split; [exact Tk|reflexivity]].
    unfold law. fold s. split; [f_equal; ring|reflexivity].
  - unfold gen_normal. apply rows_ok. intros r c Hc. assert (Tk : takes (QNormal (INR c * (5 * sep)) 1) = true) by (cbn; apply Rltb_true; lra).
    rewrite asks_ok by exact Tk. eexists. split; [reflexivity|]. exists (QNormal (INR c * (5 * sep)) 1), (fun x => x). split; [|split; [exact Tk|reflexivity]]. split; [f_equal; ring|reflexivity].
  - unfold gen_poisson. apply rows_ok. intros r c Hc. pose proof (pos_INR c) as Pc. assert (Tk : takes (QPoisson (INR c * (4 * sep) + 1)) = true) by (cbn; apply Rleb_true; nra).
    rewrite asks_ok by exact Tk. eexists. split; [reflexivity|]. exists (QPoisson (INR c * (4 * sep) + 1)), (fun x => x). split; [|split; [exact Tk|reflexivity]]. split; [f_equal; ring|reflexivity].
  - unfold gen_vonmises. rewrite ET. cbn [rbind]. replace (Rltb sep 0) with false by (symmetry; apply Rltb_false; lra). replace (Reqb sep 0) with false by (symmetry; apply Reqb_false; lra).
    apply rows_ok. intros r c Hc. unfold at_. rewrite nth_error_map. replace (nth_error (seq 0 K) c) with (Some c).
    2:{ symmetry. rewrite (nth_error_nth' (seq 0 K) 0%nat) by (rewrite seq_length; apply Hlt, Hc). rewrite seq_nth by (apply Hlt, Hc). reflexivity. }
    cbn [option_map rbind]. set (std := 2 * PI / INR K / (5 * Rpower sep (75 / 100))). assert (Hpw : 0 < Rpower sep (75 / 100)) by apply exp_pos.
    assert (Hstd : 0 < std) by (unfold std; apply Rdiv_lt_0_compat; [apply Rdiv_lt_0_compat; lra|lra]). assert (Hk : 0 < 1 / (std * std)) by (apply Rdiv_lt_0_compat; nra).
    assert (Tk : takes (QVonmises (INR c * (2 * PI / INR K)) (1 / (std * std))) = true) by (cbn; apply Rleb_true; lra).
    rewrite asks_ok by exact Tk. cbn [rbind]. eexists. split; [reflexivity|]. exists (QVonmises (INR c * (2 * PI / INR K)) (1 / (std * std))), (fun x => x + PI). split; [|split; [exact Tk|reflexivity]].
    exists (1 / (std * std)). split; [f_equal; apply Rdiv_INR|]. split; [exact Hk|]. split; [|reflexivity]. unfold std. replace (75 / 100) with (3 / 4) in * by lra. field. repeat split; lra.
Qed.
Lemma law_belongs g k K sep c q f j : honest g -> law k K sep c q f -> takes q = true -> belongs k (f (ask g q j 0)).
Proof.
  intros [Ha _] L Tk. specialize (Ha q j 0%nat Tk). destruct k; cbn [law belongs] in *; try contradiction.
  - destruct L as [-> ->]. destruct (Rltb _ _); auto.
  - destruct L as [a [b [-> [_ [_ [_ ->]]]]]]. exact Ha.
  - destruct L as [-> ->]. exact Ha.
  - destruct L as [-> ->]. destruct Ha as [i ->]. exists i. rewrite S_INR. ring.
  - destruct L as [-> ->]. exact Ha.
  - exact I.
  - destruct L as [-> ->]. exact Ha.
  - destruct L as [m [-> [_ [_ ->]]]]. cbn in Ha. lra.
Qed.
Lemma categorical_rows g n Zs sep : honest g -> Zs <> [] -> 0 < sep <= 1 -> (1 <= n)%Z ->
  exists T, gen_column g (GCategorical n) Zs sep = Ok T /\ length T = length Zs /\ Forall (belongs (GCategorical n)) T.
Proof.
  intros [_ [Hf [Hd _]]] Hne Hs Hn. destruct (top_ok Zs Hne) as [K [ET [_ Hlt]]]. cbn [gen_column]. unfold gen_categorical. rewrite ET. cbn [rbind].
  set (s := if Rltb (95 / 100) sep then 95 / 100 else sep). assert (Hs' : 0 < 1 - s). { unfold s. destruct (Rltb (95 / 100) sep) eqn:E; [lra|apply Rltb_false in E; lra]. }
  replace (n <? 1)%Z with false by (symmetry; apply Z.ltb_ge; exact Hn). rewrite (proj2 (Rltb_true 0 (1 - s)) Hs'). cbn [negb orb].
  destruct (rows_ok (fun _ _ x => belongs (GCategorical n) x) (fun r c => rbind (at_ (map (dirichlet g (Z.to_nat n) (1 - s)) (seq 0 K)) c) (fun p => rbind (pflip (flip g r) (map Fin p) (seq 0 (length p))) (fun x => Ok (INR x)))) Zs) with (r0 := 0%nat) as [T [E [L Q]]].
  - intros r c Hc. unfold at_. rewrite nth_error_map. replace (nth_error (seq 0 K) c) with (Some c).
    2:{ symmetry. rewrite (nth_error_nth' (seq 0 K) 0%nat) by (rewrite seq_length; apply Hlt, Hc). rewrite seq_nth by (apply Hlt, Hc). reflexivity. }
    cbn [option_map rbind]. destruct (Hd (Z.to_nat n) (1 - s) c ltac:(lia) Hs') as [Dl [Dn Ds]]. set (p := dirichlet g (Z.to_nat n) (1 - s) c) in *.
    destruct (pflip_spec (flip g r) (map Fin p) p (seq 0 (length p)) (Hf r)) as [i [a [x [Ep [Ea [Ex Hx]]]]]]; [split; [reflexivity|split; [exact Dn|lra]]|apply seq_length|].
    rewrite Ep. cbn [rbind]. exists (INR a). split; [reflexivity|]. exists a. split; [reflexivity|]. assert (Ia : In a (seq 0 (length p))) by (eapply nth_error_In; exact Ea). apply in_seq in Ia. lia.
  - exists T. split; [exact E|]. split; [exact L|]. apply (rows_forall (fun _ _ x => belongs (GCategorical n) x) _ T Zs 0%nat L Q). intros _ _ x H. exact H.
Qed.

(** Whatever the generator answers, a column of an ordinary class is made, with a value of the
    class for each row. *)
Theorem C66_values : forall g k Zs sep, honest g -> Zs <> [] -> 0 < sep <= 1 -> ordinary k ->
  exists T, gen_column g k Zs sep = Ok T /\ length T = length Zs /\ Forall (belongs k) T.
Proof.
  intros g k Zs sep Hg Hne Hs Ho. destruct (top_ok Zs Hne) as [K [_ HK]].
  assert (Hcat : (exists n, k = GCategorical n) \/ forall n, k <> GCategorical n) by (destruct k; eauto; right; discriminate).
  destruct Hcat as [[n ->]|Hcat]; [apply categorical_rows; assumption|].
  destruct (law_rows g k Zs sep K Hg Hne Hs HK Ho Hcat) as [T [E [L Q]]]. exists T. split; [exact E|]. split; [exact L|].
  apply (rows_forall (fun r c x => exists q f, law k K sep c q f /\ takes q = true /\ x = f (ask g q r 0)) _ T Zs 0%nat L Q).
  intros r c x [q [f [A [B ->]]]]. apply (law_belongs g k K sep c q f r Hg A B).
Qed.
Print Assumptions C66_values.

(** Rows of one cluster are drawn from one law, and those of different clusters from laws as far
    apart as the separation says. *)
Theorem C66_laws : forall g k Zs sep K T, honest g -> 0 < sep <= 1 -> clusters Zs K -> ordinary k -> (forall n, k <> GCategorical n) ->
  gen_column g k Zs sep = Ok T -> forall j c, nth_error Zs j = Some c -> exists q f, law k K sep c q f /\ nth_error T j = Some (f (ask g q j 0)).
Proof.
  intros g k Zs sep K T Hg Hs HK Ho Hcat E j c Hj. assert (Hne : Zs <> []) by (intros ->; destruct j; discriminate).
  destruct (law_rows g k Zs sep K Hg Hne Hs HK Ho Hcat) as [T' [E' [L Q]]]. rewrite E in E'. injection E' as <-. destruct (Q j c Hj) as [x [Ex [q [f [A [_ ->]]]]]]. eauto.
Qed.
Print Assumptions C66_laws.

(** Rows of the first cluster of a binary column are zero, and so is a column of one cluster. *)
Theorem C66_first : forall g Zs sep T j, honest g -> 0 < sep <= 1 -> gen_column g GBernoulli Zs sep = Ok T -> nth_error Zs j = Some 0%nat -> nth_error T j = Some 0.
Proof.
  intros g Zs sep T j Hg Hs E Hj. assert (Hne : Zs <> []) by (intros ->; destruct j; discriminate). destruct (top_ok Zs Hne) as [K [_ HK]].
  destruct (C66_laws g GBernoulli Zs sep K T Hg Hs HK I ltac:(discriminate) E j 0%nat Hj) as [q [f [[-> ->] ->]]]. f_equal.
  destruct Hg as [Ha _]. specialize (Ha QUniform j 0%nat eq_refl). cbn in Ha.
  replace (Rltb _ _) with false; [reflexivity|]. symmetry. apply Rltb_false. destruct (K =? 1)%nat; [lra|]. cbn [INR]. unfold Rdiv. rewrite Rmult_0_r, Rmult_0_l. lra.
Qed.
Print Assumptions C66_first.

(** A column of the truncated normal takes for each row the first of 101 draws, about a point of
    the bin of its cluster, that lies between the ends; it fails just when there is none. *)
Definition centre (l h : R) (K : nat) (sep : R) (c : nat) : R := (l + h) / 2 + sep * (l + (INR c + 1 / 2) * (h - l) / INR K - (l + h) / 2).
Lemma attempts_spec g l h mu r fuel : forall i,
  (exists n, (n < fuel)%nat /\ l <= ask g (QNormal mu 1) r (i + n) <= h /\ (forall m, (m < n)%nat -> ~ (l <= ask g (QNormal mu 1) r (i + m) <= h)) /\
     attempts g l h mu r i fuel = Ok (ask g (QNormal mu 1) r (i + n))) \/
  ((forall m, (m < fuel)%nat -> ~ (l <= ask g (QNormal mu 1) r (i + m) <= h)) /\ attempts g l h mu r i fuel = Err ValueError).
Proof.
  induction fuel as [|fuel IH]; intros i; [right; split; [intros m Hm; lia|reflexivity]|]. cbn [attempts]. rewrite asks_ok by (cbn; apply Rltb_true; lra). cbn [rbind].
  destruct (Rleb l (ask g (QNormal mu 1) r i) && Rleb (ask g (QNormal mu 1) r i) h) eqn:E.
  - apply andb_true_iff in E. destruct E as [E1 E2]. apply Rleb_true in E1, E2. left. exists 0%nat. rewrite Nat.add_0_r. split; [lia|]. split; [lra|]. split; [intros m Hm; lia|reflexivity].
  - assert (N : ~ (l <= ask g (QNormal mu 1) r i <= h)). { intros [A B]. apply Rleb_true in A, B. rewrite A, B in E. discriminate. }
    destruct (IH (S i)) as [[n [Hn [Hin [Hno Ea]]]]|[Hno Ea]].
    + left. exists (S n). replace (i + S n)%nat with (S i + n)%nat by lia. split; [lia|]. split; [exact Hin|]. split; [|exact Ea].
      intros [|m] Hm; [rewrite Nat.add_0_r; exact N|]. replace (i + S m)%nat with (S i + m)%nat by lia. apply Hno. lia.
    + right. split; [|exact Ea]. intros [|m] Hm; [rewrite Nat.add_0_r; exact N|]. replace (i + S m)%nat with (S i + m)%nat by lia. apply Hno. lia.
Qed.
Lemma bins_point l h K sep c : (c < K)%nat ->
  nth_error (map (fun bc => bc + (1 - sep) * ((l + h) / 2 - bc)) (map (fun i => 5 / 10 * (nth (i - 1) (linspace l h (K + 1)) 0 + nth i (linspace l h (K + 1)) 0)) (seq 1 (length (linspace l h (K + 1)) - 1)))) c
  = Some (centre l h K sep c).
Proof.
  intros Hc. rewrite !nth_error_map, linspace_length. replace (K + 1 - 1)%nat with K by lia. replace (nth_error (seq 1 K) c) with (Some (S c)).
  2:{ symmetry. rewrite (nth_error_nth' (seq 1 K) 0%nat) by (rewrite seq_length; exact Hc). rewrite seq_nth by exact Hc. reflexivity. }
  cbn [option_map]. f_equal. replace (S c - 1)%nat with c by lia. rewrite !linspace_nth by lia. replace (K + 1 - 1)%nat with K by lia. rewrite S_INR. unfold centre.
  assert (0 < INR K) by (apply lt_0_INR; lia). field. lra.
Qed.
Theorem C66_trunc : forall g l h Zs sep K, Zs <> [] -> clusters Zs K ->
  let hit r c n := l <= ask g (QNormal (centre l h K sep c) 1) r n <= h in
  ((forall j c, nth_error Zs j = Some c -> exists n, (n <= 100)%nat /\ hit j c n) ->
    exists T, gen_column g (GTrunc l h) Zs sep = Ok T /\ length T = length Zs /\ Forall (belongs (GTrunc l h)) T /\
      forall j c, nth_error Zs j = Some c -> exists n, hit j c n /\ (forall m, (m < n)%nat -> ~ hit j c m) /\ nth_error T j = Some (ask g (QNormal (centre l h K sep c) 1) j n)) /\
  ((exists j c, nth_error Zs j = Some c /\ forall n, (n <= 100)%nat -> ~ hit j c n) -> gen_column g (GTrunc l h) Zs sep = Err ValueError).
Proof.
  intros g l h Zs sep K Hne HK hit. destruct (top_ok Zs Hne) as [K' [ET HK']]. assert (K' = K) as -> by (apply (clusters_fun Zs); assumption). destruct HK as [_ Hlt].
  cbn [gen_column]. unfold gen_trunc. rewrite ET. cbn [rbind].
  set (f := fun r c => rbind (at_ (map (fun bc => bc + (1 - sep) * ((l + h) / 2 - bc)) (map (fun i => 5 / 10 * (nth (i - 1) (linspace l h (K + 1)) 0 + nth i (linspace l h (K + 1)) 0)) (seq 1 (length (linspace l h (K + 1)) - 1)))) c) (fun mu => attempts g l h mu r 0 101)).
  assert (Ef : forall r c, In c Zs -> f r c = attempts g l h (centre l h K sep c) r 0 101). { intros r c Hc. unfold f, at_. rewrite bins_point by (apply Hlt, Hc). reflexivity. }
  clearbody f. clear ET HK' Hlt Hne. split.
  - intros H. assert (R : forall Z0 r0, incl Z0 Zs -> (forall j c, nth_error Z0 j = Some c -> exists n, (n <= 100)%nat /\ hit (r0 + j)%nat c n) ->
      exists T, rows f r0 Z0 = Ok T /\ length T = length Z0 /\ forall j c, nth_error Z0 j = Some c -> exists n, hit (r0 + j)%nat c n /\ (forall m, (m < n)%nat -> ~ hit (r0 + j)%nat c m) /\ nth_error T j = Some (ask g (QNormal (centre l h K sep c) 1) (r0 + j) n)).
    { induction Z0 as [|c Z0 IH]; intros r0 Hi Hh; [exists []; repeat split; intros [|j] c; discriminate|].
      destruct (IH (S r0)) as [T [E [L Q]]]; [intros x Hx; apply Hi; right; exact Hx|intros j d Hj; destruct (Hh (S j) d Hj) as [n Hn]; exists n; replace (S r0 + j)%nat with (r0 + S j)%nat by lia; exact Hn|].
      destruct (Hh 0%nat c eq_refl) as [n [Hn Hhit]]. rewrite Nat.add_0_r in Hhit. destruct (attempts_spec g l h (centre l h K sep c) r0 101 0) as [[n' [_ [Hin [Hno Ea]]]]|[Hno _]].
      2:{ exfalso. apply (Hno n); [lia|]. exact Hhit. }
      cbn in Hin, Hno. exists (ask g (QNormal (centre l h K sep c) 1) r0 (0 + n') :: T). cbn [rows]. rewrite Ef by (apply Hi; left; reflexivity). rewrite Ea. cbn [rbind]. rewrite E. split; [reflexivity|]. split; [cbn; rewrite L; reflexivity|].
      intros [|j] d Hj; cbn in Hj.
      - injection Hj as <-. exists n'. rewrite Nat.add_0_r. split; [exact Hin|]. split; [exact Hno|reflexivity].
      - destruct (Q j d Hj) as [m Hm]. exists m. replace (r0 + S j)%nat with (S r0 + j)%nat by lia. exact Hm. }
    destruct (R Zs 0%nat (incl_refl _) H) as [T [E [L Q]]]. exists T. split; [exact E|]. split; [exact L|]. split; [|exact Q].
    apply Forall_forall. intros x Hx. apply In_nth_error in Hx. destruct Hx as [j Hj]. destruct (nth_error Zs j) as [c|] eqn:Ec; [|apply nth_error_None in Ec; assert (j < length T)%nat by (apply nth_error_Some; congruence); lia].
    destruct (Q j c Ec) as [n [Hn [_ En]]]. cbn in En. rewrite Hj in En. injection En as ->. exact Hn.
  - intros [j0 [c0 [Hj0 Hno0]]]. assert (R : forall Z0 r0 j c, incl Z0 Zs -> nth_error Z0 j = Some c -> (forall n, (n <= 100)%nat -> ~ hit (r0 + j)%nat c n) -> rows f r0 Z0 = Err ValueError).
    { induction Z0 as [|d Z0 IH]; intros r0 j c Hi Hj Hno; [destruct j; discriminate|]. cbn [rows]. rewrite Ef by (apply Hi; left; reflexivity).
      destruct (attempts_spec g l h (centre l h K sep d) r0 101 0) as [[n' [Hn' [Hin [_ Ea]]]]|[_ Ea]]; rewrite Ea; cbn [rbind]; [|reflexivity].
      destruct j as [|j]; cbn in Hj.
      - injection Hj as ->. exfalso. apply (Hno n'); [lia|]. rewrite Nat.add_0_r. exact Hin.
      - rewrite (IH (S r0) j c); [reflexivity|intros x Hx; apply Hi; right; exact Hx|exact Hj|]. intros n Hn. replace (S r0 + j)%nat with (r0 + S j)%nat by lia. apply Hno, Hn. }
    apply (R Zs 0%nat j0 c0 (incl_refl _) Hj0). intros n Hn. apply Hno0, Hn.
Qed.
Print Assumptions C66_trunc.

(* ------------------------------------------------------------------ *)
(** ** Partitions *)
Lemma fold_sum l : forall a, fold_left Rplus l a = a + Rsum l.
Proof. induction l as [|x l IH]; intros a; cbn; [ring|]. rewrite IH. fold (Rsum l). ring. Qed.
Lemma Rsum_pos (l : list R) : Forall (fun x => 0 < x) l -> l <> [] -> 0 < Rsum l.
Proof.
  induction 1 as [|x l Hx Hl IH]; intros Hne; [congruence|]. cbn. fold (Rsum l). destruct l as [|y l]; [cbn; lra|]. assert (0 < Rsum (y :: l)) by (apply IH; discriminate). lra.
Qed.

(** A partition has N rows and exactly the clusters of its weights; otherwise it is refused. *)
Theorem C66_partition : forall g N w, honest g ->
  (weighty w -> (length w <= N)%nat -> exists Zs, gen_partition g N w = Ok Zs /\ length Zs = N /\ forall c, In c Zs <-> (c < length w)%nat) /\
  (In 0 w \/ Rabs (Rsum w - 1) > 1 / 100000000 + 1 / 100000 \/ (N < length w)%nat -> gen_partition g N w = Err AssertionError).
Proof.
  intros g N w [_ [Hf [_ Hsh]]]. assert (E0 : fold_left Rplus w 0 = Rsum w) by (rewrite fold_sum; ring). unfold gen_partition. rewrite E0. split.
  - intros [Hw Hs] HN. replace (forallb (fun x => negb (Reqb x 0)) w) with true.
    2:{ symmetry. apply forallb_forall. intros x Hx. rewrite Forall_forall in Hw. specialize (Hw x Hx). apply negb_true_iff, Reqb_false. lra. }
    unfold close1. rewrite (proj2 (Rleb_true _ _) Hs). rewrite (proj2 (Nat.leb_le _ _) HN). cbn [negb].
    assert (Hne : w <> []). { intros ->. cbn in Hs. replace (0 - 1) with (- (1)) in Hs by ring. rewrite Rabs_Ropp, Rabs_R1 in Hs. lra. }
    assert (Hp : forall j, exists a, pflip (flip g j) (map Fin w) (seq 0 (length w)) = Ok a /\ (a < length w)%nat).
    { intros j. destruct (pflip_spec (flip g j) (map Fin w) w (seq 0 (length w)) (Hf j)) as [i [a [x [Ep [Ea _]]]]]; [|apply seq_length|].
      - split; [reflexivity|]. split; [eapply Forall_impl; [|exact Hw]; intros; lra|apply Rsum_pos; assumption].
      - exists a. split; [exact Ep|]. apply nth_error_In, in_seq in Ea. lia. }
    assert (Hl : forall js, exists out, rsequence (map (fun j => pflip (flip g j) (map Fin w) (seq 0 (length w))) js) = Ok out /\ length out = length js /\ Forall (fun a => (a < length w)%nat) out).
    { induction js as [|j js [out [E [L F]]]]; [exists []; repeat split; constructor|]. destruct (Hp j) as [a [Ea La]]. exists (a :: out). cbn [map rsequence]. rewrite Ea. cbn [rbind]. rewrite E. cbn. auto. }
    destruct (Hl (seq 0 (N - length w))) as [out [E [L F]]]. rewrite E. cbn [rbind]. eexists. split; [reflexivity|]. pose proof (Hsh (seq 0 (length w) ++ out)) as Hperm. split.
    + rewrite <- (Permutation_length Hperm), app_length, !seq_length, L, seq_length. lia.
    + intros c. split.
      * intros Hc. apply (Permutation_in _ (Permutation_sym Hperm)) in Hc. apply in_app_or in Hc. destruct Hc as [Hc|Hc]; [apply in_seq in Hc; lia|]. rewrite Forall_forall in F. apply F, Hc.
      * intros Hc. apply (Permutation_in _ Hperm), in_or_app. left. apply in_seq. lia.
  - intros H. destruct (forallb (fun x => negb (Reqb x 0)) w) eqn:E1; [|reflexivity]. destruct (close1 (Rsum w)) eqn:E2; [|reflexivity]. destruct (Nat.leb (length w) N) eqn:E3; [|reflexivity]. exfalso.
    destruct H as [H|[H|H]].
    + rewrite forallb_forall in E1. specialize (E1 0 H). apply negb_true_iff, Reqb_false in E1. congruence.
    + unfold close1 in E2. apply Rleb_true in E2. lra.
    + apply Nat.leb_le in E3. lia.
Qed.
Print Assumptions C66_partition.

(** The draw from the weights [w]: there is no choice among one. *)
Definition drawn (d : list ext -> nat) (w : list R) : nat := if (length w =? 1)%nat then 0%nat else d (map Fin (map (fun x => x / Rsum w) w)).
Lemma pflip_drawn d w : draw_ok d -> Forall (fun x => 0 <= x) w -> 0 < Rsum w -> pflip d (map Fin w) (seq 0 (length w)) = Ok (drawn d w).
Proof.
  intros Hd Hw Hp. destruct w as [|x [|y w]]; [cbn in Hp; lra|reflexivity|]. unfold drawn. cbn [length Nat.eqb].
  assert (W : weights (map Fin (x :: y :: w)) (x :: y :: w)) by (split; [reflexivity|split; assumption]).
  pose proof (normalize_weights _ _ W) as Hn. destruct (choice_spec d (seq 0 (length (x :: y :: w))) (x :: y :: w) Hd (seq_length _ _) Hw Hp) as [_ [a [_ [Ea _]]]].
  transitivity (choice d (seq 0 (length (x :: y :: w))) (normalize (map Fin (x :: y :: w)))); [reflexivity|]. rewrite Hn. rewrite Ea. f_equal.
  unfold choice in Ea. destruct (_ && _) in Ea; [|discriminate]. set (i := d (map Fin (map (fun x0 => x0 / Rsum (x :: y :: w)) (x :: y :: w)))) in *.
  destruct (nth_error (seq 0 (length (x :: y :: w))) i) as [b|] eqn:E; [|discriminate]. injection Ea as ->.
  assert (L : (i < length (x :: y :: w))%nat) by (rewrite <- (seq_length (length (x :: y :: w)) 0); apply nth_error_Some; congruence).
  rewrite (nth_error_nth' _ 0%nat) in E by (rewrite seq_length; exact L). rewrite seq_nth in E by exact L. injection E as <-. reflexivity.
Qed.
(** The rows of a partition beyond the first of each cluster are drawn by the weights, one draw
    for each, and then shuffled. *)
Theorem C66_drawn : forall g N w, honest g -> weighty w -> (length w <= N)%nat ->
  gen_partition g N w = Ok (shuffle g (seq 0 (length w) ++ map (fun j => drawn (flip g j) w) (seq 0 (N - length w)))).
Proof.
  intros g N w Hg Hw HN. destruct (proj1 (C66_partition g N w Hg) Hw HN) as [Zs [E _]]. rewrite E. revert E. destruct Hg as [_ [Hf _]]. destruct Hw as [Hw Hs].
  assert (Hne : w <> []). { intros ->. cbn in Hs. replace (0 - 1) with (- (1)) in Hs by ring. rewrite Rabs_Ropp, Rabs_R1 in Hs. lra. }
  unfold gen_partition. do 3 (destruct (negb _); [discriminate|]).
  replace (map (fun j => pflip (flip g j) (map Fin w) (seq 0 (length w))) (seq 0 (N - length w))) with (map (@Ok nat) (map (fun j => drawn (flip g j) w) (seq 0 (N - length w)))).
  2:{ rewrite map_map. apply map_ext. intros j. symmetry. apply pflip_drawn; [apply Hf|eapply Forall_impl; [|exact Hw]; intros; lra|apply Rsum_pos; assumption]. }
  rewrite (proj2 (rsequence_ok _ _) eq_refl). cbn [rbind]. congruence.
Qed.
Print Assumptions C66_drawn.
(** Each row of a categorical column is drawn by the weights of its cluster. *)
Theorem C66_categorical : forall g n Zs sep T, honest g -> 0 < sep <= 1 -> (1 <= n)%Z -> gen_column g (GCategorical n) Zs sep = Ok T ->
  forall j c, nth_error Zs j = Some c -> nth_error T j = Some (INR (drawn (flip g j) (dirichlet g (Z.to_nat n) (1 - Rmin sep (95 / 100)) c))).
Proof.
  intros g n Zs sep T [_ [Hf [Hd _]]] Hs Hn H j c Hj. cbn [gen_column] in H. unfold gen_categorical in H.
  replace (if Rltb (95 / 100) sep then 95 / 100 else sep) with (Rmin sep (95 / 100)) in H.
  2:{ unfold Rmin. destruct (Rltb (95 / 100) sep) eqn:E; [apply Rltb_true in E|apply Rltb_false in E]; destruct (Rle_dec sep (95 / 100)); lra. }
  pose proof (Rmin_r sep (95 / 100)) as Hm. set (s := Rmin sep (95 / 100)) in *. assert (Hne : Zs <> []) by (intros ->; destruct j; discriminate). destruct (top_ok Zs Hne) as [K [ET [_ Hlt]]]. rewrite ET in H. cbn [rbind] in H.
  destruct (_ || _) in H; [discriminate|].
  destruct (rows_ok (fun r c x => x = INR (drawn (flip g r) (dirichlet g (Z.to_nat n) (1 - s) c)))
    (fun r c => rbind (at_ (map (dirichlet g (Z.to_nat n) (1 - s)) (seq 0 K)) c) (fun p => rbind (pflip (flip g r) (map Fin p) (seq 0 (length p))) (fun x => Ok (INR x)))) Zs) with (r0 := 0%nat) as [T' [E [L Q]]].
  - intros r d Hdz. unfold at_. rewrite nth_error_map. replace (nth_error (seq 0 K) d) with (Some d).
    2:{ symmetry. rewrite (nth_error_nth' (seq 0 K) 0%nat) by (rewrite seq_length; apply Hlt, Hdz). rewrite seq_nth by (apply Hlt, Hdz). reflexivity. }
    cbn [option_map rbind]. destruct (Hd (Z.to_nat n) (1 - s) d) as [Dl [Dn Ds]]; [lia|lra|]. rewrite pflip_drawn; [|apply Hf|exact Dn|lra]. cbn [rbind]. eexists. split; reflexivity.
  - rewrite H in E. injection E as <-. destruct (Q j c Hj) as [x [-> ->]]. reflexivity.
Qed.
Print Assumptions C66_categorical.

(** A table of ordinary classes is made, with the partition of the columns as asked, for each
    view a partition of the rows, and columns of values of their classes. *)
Theorem C66_table : forall vsrc zsrc src n_rows view_weights cluster_weights classes separation view_partition,
  honest vsrc -> (forall v, honest (zsrc v)) -> (forall c, honest (src c)) ->
  Forall ordinary classes -> classes <> [] -> length separation = length classes -> Forall (fun s => 0 < s <= 1) separation ->
  Forall (fun w => weighty w /\ (length w <= n_rows)%nat) cluster_weights ->
  (view_partition = [] /\ weighty view_weights /\ length view_weights = length cluster_weights /\ (length view_weights <= length classes)%nat \/
   length view_partition = length classes /\ forall v, In v view_partition <-> (v < length cluster_weights)%nat) ->
  exists T Zv Zc, gen_data_table vsrc zsrc src n_rows view_weights cluster_weights classes separation view_partition = Ok (T, Zv, Zc) /\
    (view_partition <> [] -> Zv = view_partition) /\
    length Zv = length classes /\ (forall v, In v Zv <-> (v < length cluster_weights)%nat) /\
    Forall2 (fun w Zs => length Zs = n_rows /\ forall c, In c Zs <-> (c < length w)%nat) cluster_weights Zc /\
    Forall2 (fun k t => length t = n_rows /\ Forall (belongs k) t) classes T.
Proof.
  intros vsrc zsrc src n_rows vw cws classes separation vp Hv Hz Hc Hord Hne HL Hsep Hcw Hvp. unfold gen_data_table.
  assert (A : exists Zv, (match vp with [] => gen_partition vsrc (length classes) vw | _ => Ok vp end) = Ok Zv /\ (vp <> [] -> Zv = vp) /\ length Zv = length classes /\ forall v, In v Zv <-> (v < length cws)%nat).
  { destruct Hvp as [[-> [W [L1 L2]]]|[L1 L2]].
    - destruct (proj1 (C66_partition vsrc (length classes) vw Hv) W L2) as [Zv [E [L Q]]]. exists Zv. rewrite <- L1. split; [exact E|]. split; [congruence|]. auto.
    - exists vp. destruct vp as [|v vp]; [destruct classes; [congruence|discriminate]|]. auto. }
  destruct A as [Zv [EZv [Qv [Lv Iv]]]]. rewrite EZv. cbn [rbind].
  assert (B : forall ws i, Forall (fun w => weighty w /\ (length w <= n_rows)%nat) ws -> exists Zc, rsequence (map (fun '(v, cw) => gen_partition (zsrc v) n_rows cw) (combine (seq i (length ws)) ws)) = Ok Zc /\
     Forall2 (fun w Zs => length Zs = n_rows /\ forall c, In c Zs <-> (c < length w)%nat) ws Zc).
  { induction ws as [|w ws IH]; intros i Hw; [exists []; split; [reflexivity|constructor]|]. inversion Hw as [|? ? [W1 W2] Hw']; subst. destruct (IH (S i) Hw') as [Zc [E F]].
    destruct (proj1 (C66_partition (zsrc i) n_rows w (Hz i)) W1 W2) as [Zs [E1 [L1 Q1]]]. exists (Zs :: Zc). cbn [length seq combine map rsequence]. rewrite E1. cbn [rbind]. rewrite E. split; [reflexivity|constructor; auto]. }
  destruct (B cws 0%nat Hcw) as [Zc [EZc FZc]]. rewrite EZc. cbn [rbind]. rewrite Lv, Nat.eqb_refl. cbn [negb].
  assert (Lc : length Zc = length cws) by (clear - FZc; induction FZc; cbn; [reflexivity|f_equal; assumption]).
  assert (Ln : length (nodup Nat.eq_dec Zv) = length cws).
  { rewrite <- (seq_length (length cws) 0). apply Permutation_length, NoDup_Permutation; [apply NoDup_nodup|apply seq_NoDup|]. intros v. rewrite nodup_In, Iv, in_seq. lia. }
  rewrite Lc, Ln, Nat.eqb_refl. cbn [negb].
  assert (Hpos : (0 < length cws)%nat). { destruct Zv as [|v Zv]; [destruct classes; [congruence|discriminate]|]. specialize (proj1 (Iv v) (or_introl eq_refl)). lia. }
  destruct Zc as [|Z0 Zc']; [cbn in Lc; lia|]. cbn [at_ nth_error rbind]. assert (L0 : length Z0 = n_rows) by (inversion FZc as [|? ? ? ? [Q _]]; exact Q). rewrite L0, Nat.eqb_refl. cbn [negb].
  set (Zc := Z0 :: Zc') in *.
  assert (Hn : forall v Zs, nth_error Zc v = Some Zs -> length Zs = n_rows /\ Zs <> []).
  { intros v Zs Hv'. assert (Q : exists w, In w cws /\ length Zs = n_rows /\ forall c, In c Zs <-> (c < length w)%nat).
    { clearbody Zc. clear - FZc Hv'. revert v Hv'. induction FZc as [|w Z ws Zc [F1 F2] FF IH]; intros [|v] H; try discriminate; cbn in H; [injection H as <-; exists w; split; [left; reflexivity|auto]|].
      destruct (IH v H) as [w' [I1 I2]]. exists w'. split; [right; exact I1|exact I2]. }
    destruct Q as [w [Iw [Q1 Q2]]]. split; [exact Q1|]. rewrite Forall_forall in Hcw. destruct (Hcw w Iw) as [[_ Ws] _]. destruct w as [|x w].
    - cbn in Ws. replace (0 - 1) with (- (1)) in Ws by ring. rewrite Rabs_Ropp, Rabs_R1 in Ws. lra.
    - intros ->. apply (proj2 (Q2 0%nat)). cbn. lia. }
  assert (C : forall cls zv seps i, Forall ordinary cls -> length zv = length cls -> length seps = length cls -> Forall (fun s => 0 < s <= 1) seps -> (forall v, In v zv -> (v < length cws)%nat) ->
    exists T, gen_columns src i (combine zv cls) seps Zc = Ok T /\ Forall2 (fun k t => length t = n_rows /\ Forall (belongs k) t) cls T).
  { induction cls as [|k cls IH]; intros zv seps i Ho L1 L2 Hs Hi; [destruct zv; [|discriminate]; exists []; split; [reflexivity|constructor]|].
    destruct zv as [|v zv]; [discriminate|]. destruct seps as [|s seps]; [discriminate|]. inversion Ho as [|? ? O1 O2]; subst. inversion Hs as [|? ? S1 S2]; subst.
    destruct (IH zv seps (S i) O2 ltac:(cbn in L1; lia) ltac:(cbn in L2; lia) S2 (fun v' H' => Hi v' (or_intror H'))) as [T [E F]].
    destruct (at_ok Zc v) as [Zs [Ea Ev]]; [rewrite Lc; apply Hi; left; reflexivity|]. destruct (Hn v Zs Ev) as [N1 N2]. destruct (C66_values (src i) k Zs s (Hc i) N2 S1 O1) as [t [Et [Lt Ft]]].
    exists (t :: T). cbn [combine gen_columns tl]. rewrite Ea. cbn [rbind]. rewrite Et. cbn [rbind]. rewrite E. split; [reflexivity|]. constructor; [split; [congruence|exact Ft]|exact F]. }
  destruct (C classes Zv separation 0%nat Hord Lv HL Hsep (fun v H => proj1 (Iv v) H)) as [T [ET FT]]. rewrite ET. cbn [rbind].
  exists T, Zv, Zc. split; [reflexivity|]. repeat (split; [assumption|]). exact FT.
Qed.
Print Assumptions C66_table.

(** Column [c] of the table is made from the row partition of its view, with its class, its
    separation and its draws; the table has a column for each class. *)
Lemma columns_nth src : forall cols seps Zc i T, gen_columns src i cols seps Zc = Ok T -> length T = length cols /\
  forall j v k, nth_error cols j = Some (v, k) -> exists Zs s t, nth_error Zc v = Some Zs /\ nth_error seps j = Some s /\ nth_error T j = Some t /\ gen_column (src (i + j)%nat) k Zs s = Ok t.
Proof.
  induction cols as [|[v k] cols IH]; intros seps Zc i T H; cbn in H; [injection H as <-; split; [reflexivity|intros [|j]; discriminate]|].
  unfold at_ in H. destruct (nth_error Zc v) as [Zs|] eqn:EZ; [|discriminate]. cbn [rbind] in H. destruct seps as [|s seps]; [discriminate|]. cbn [rbind tl] in H.
  destruct (gen_column (src i) k Zs s) as [t|] eqn:Et; [|discriminate]. cbn [rbind] in H. destruct (gen_columns src (S i) cols seps Zc) as [T'|] eqn:ET; [|discriminate]. injection H as <-.
  destruct (IH seps Zc (S i) T' ET) as [L Q]. split; [cbn; rewrite L; reflexivity|]. intros [|j] v' k' Hj; cbn in Hj.
  - injection Hj as <- <-. exists Zs, s, t. rewrite Nat.add_0_r. auto.
  - destruct (Q j v' k' Hj) as [Zs' [s' [t' [A [B [C D]]]]]]. exists Zs', s', t'. replace (i + S j)%nat with (S i + j)%nat by lia. auto.
Qed.
Theorem C66_columns : forall vsrc zsrc src n_rows view_weights cluster_weights classes separation view_partition T Zv Zc,
  gen_data_table vsrc zsrc src n_rows view_weights cluster_weights classes separation view_partition = Ok (T, Zv, Zc) ->
  length T = length classes /\
  forall c k v, nth_error classes c = Some k -> nth_error Zv c = Some v ->
    exists Zs s t, nth_error Zc v = Some Zs /\ nth_error separation c = Some s /\ nth_error T c = Some t /\ gen_column (src c) k Zs s = Ok t.
Proof.
  intros vsrc zsrc src n_rows vw cws classes separation vp T Zv Zc H. unfold gen_data_table in H.
  match type of H with rbind ?m _ = _ => destruct m as [Zv'|] eqn:E1; [|discriminate] end. cbn [rbind] in H.
  match type of H with rbind ?m _ = _ => destruct m as [Zc'|] eqn:E2; [|discriminate] end. cbn [rbind] in H.
  destruct (Nat.eqb_spec (length Zv') (length classes)) as [L1|]; [|discriminate]. cbn [negb] in H. destruct (Nat.eqb (length Zc') _); [|discriminate]. cbn [negb] in H.
  destruct (at_ Zc' 0) as [Z0|]; [|discriminate]. cbn [rbind] in H. destruct (Nat.eqb (length Z0) n_rows); [|discriminate]. cbn [negb] in H.
  destruct (gen_columns src 0 (combine Zv' classes) separation Zc') as [T'|] eqn:ET; [|discriminate]. injection H as <- <- <-.
  destruct (columns_nth src _ _ _ _ _ ET) as [L Q]. split; [rewrite L, combine_length, L1; lia|]. intros c k v Hk Hv. apply (Q c v k). clear - Hk Hv.
  revert c classes Hk Hv. induction Zv' as [|a Zv' IH]; intros [|c] [|b classes] Hk Hv; try discriminate; cbn in *; [congruence|]. apply IH; assumption.
Qed.
Print Assumptions C66_columns.

(** A partition of the columns that does not fit is refused. *)
Theorem C66_misfit : forall vsrc zsrc src n_rows view_weights cluster_weights classes separation view_partition,
  (forall v, honest (zsrc v)) -> Forall (fun w => weighty w /\ (length w <= n_rows)%nat) cluster_weights -> view_partition <> [] ->
  length view_partition <> length classes \/ length (nodup Nat.eq_dec view_partition) <> length cluster_weights ->
  gen_data_table vsrc zsrc src n_rows view_weights cluster_weights classes separation view_partition = Err AssertionError.
Proof.
  intros vsrc zsrc src n_rows vw cws classes separation vp Hz Hcw Hne H. unfold gen_data_table.
  assert (E1 : match vp with [] => gen_partition vsrc (length classes) vw | _ => Ok vp end = Ok vp) by (destruct vp; congruence). rewrite E1. cbn [rbind].
  assert (B : forall ws i, Forall (fun w => weighty w /\ (length w <= n_rows)%nat) ws -> exists Zc, rsequence (map (fun '(v, cw) => gen_partition (zsrc v) n_rows cw) (combine (seq i (length ws)) ws)) = Ok Zc /\ length Zc = length ws).
  { induction ws as [|w ws IH]; intros i Hw; [exists []; split; reflexivity|]. inversion Hw as [|? ? [W1 W2] Hw']; subst. destruct (IH (S i) Hw') as [Zc [E F]].
    destruct (proj1 (C66_partition (zsrc i) n_rows w (Hz i)) W1 W2) as [Zs [E2 _]]. exists (Zs :: Zc). cbn [length seq combine map rsequence]. rewrite E2. cbn [rbind]. rewrite E. split; [reflexivity|cbn; rewrite F; reflexivity]. }
  destruct (B cws 0%nat Hcw) as [Zc [EZc LZ]]. rewrite EZc. cbn [rbind]. destruct (Nat.eqb_spec (length vp) (length classes)) as [L1|]; [|reflexivity]. cbn [negb].
  destruct (Nat.eqb_spec (length Zc) (length (nodup Nat.eq_dec vp))) as [L2|]; [|reflexivity]. exfalso. destruct H as [H|H]; [exact (H L1)|]. apply H. congruence.
Qed.
Print Assumptions C66_misfit.

(* ------------------------------------------------------------------ *)
(** ** Other helpers *)
Theorem C66_restrict : forall A B (query : dict A) (evidence : dict B) i j, In (i, j) (restrict query evidence) <-> In (i, j) evidence /\ In i (dkeys query).
Proof. intros A B query evidence i j. unfold restrict. rewrite filter_In. cbn [fst]. rewrite zmem_in. reflexivity. Qed.
Print Assumptions C66_restrict.
Theorem C66_alphas : forall A (old : list (A * R)) value, map fst (new_alphas old value) = map fst old /\ Forall (fun a => snd a = value) (new_alphas old value).
Proof.
  intros A old value. unfold new_alphas. split; [rewrite map_map; reflexivity|]. apply Forall_forall. intros a Ha. apply in_map_iff in Ha. destruct Ha as [b [<- _]]. reflexivity.
Qed.
Print Assumptions C66_alphas.

(** The hyperparameters of the recognised classes are those of the classes, all with the value. *)
Theorem C66_hypers : forall k value l, new_hypers k value = Ok l -> l <> [] ->
  Forall (fun h => snd h = value) l /\ NoDup (map fst l) /\
  forall h, In h (map fst l) <-> match k with
    | GBernoulli => h = HAlpha \/ h = HBeta | GCategorical _ => h = HAlpha | GNormal => h = HM \/ h = HR \/ h = HS \/ h = HNu | _ => False end.
Proof.
  intros k value l H Hne. destruct k; cbn in H; injection H as <-; try congruence; (split; [repeat constructor|]; split; [repeat constructor; cbn; intuition discriminate|]); intros h; cbn; intuition congruence.
Qed.
Print Assumptions C66_hypers.
Example ex_hypers : exists l, new_hypers GNormal 7 = Ok l /\ length l = 4%nat.
Proof. eexists. split; reflexivity. Qed.

(* ------------------------------------------------------------------ *)
(** ** Cases *)
(** Draws the first entry with a positive weight, and middling answers. *)
Fixpoint first_pos (l : list ext) : nat := match l with [] => 0%nat | x :: l' => if eltb (Fin 0) x then 0%nat else S (first_pos l') end.
Lemma first_pos_ok : draw_ok first_pos.
Proof.
  intros p _ [x [Hx Px]]. induction p as [|y p IH]; [destruct Hx|]. cbn [first_pos]. destruct (eltb (Fin 0) y) eqn:E; [exists y; auto|]. destruct Hx as [->|Hx]; [congruence|]. cbn [nth_error]. apply IH, Hx.
Qed.
Definition ex_ask (q : request) (r i : nat) : R :=
  match q with QBeta _ _ => 1 / 2 | QNormal mu _ => mu | QVonmises _ _ => 0 | QPoisson _ => 3 | QExponential mu => 1 | QGeometric _ => 1 | QLognormal _ _ => 2 | QUniform => 1 / 4 end.
Definition ex_source : source := Source ex_ask (fun _ => first_pos) (fun k _ _ => 1 :: repeat 0 (k - 1)) (fun l => rev l).
Lemma ex_honest : honest ex_source.
Proof.
  pose proof PI_RGT_0. split; [|split; [intros r; exact first_pos_ok|split; [|intros l; apply Permutation_rev]]].
  - intros q r i _. destruct q; cbn; try lra; try exact I; [exists 3%nat; cbn; lra|exists 0%nat; cbn; lra].
  - intros k a c Hk _. cbn. rewrite repeat_length. split; [lia|]. split; [constructor; [lra|]; apply Forall_forall; intros x Hx; apply repeat_spec in Hx; lra|].
    replace (fold_right Rplus 0 (repeat 0 (k - 1))) with 0; [lra|]. induction (k - 1)%nat as [|n IH]; cbn; [reflexivity|rewrite <- IH; lra].
Qed.
Example ex_weighty : weighty [3 / 10; 2 / 10; 5 / 10].
Proof. split; [repeat constructor; lra|]. cbn. replace (3 / 10 + (2 / 10 + (5 / 10 + 0)) - 1) with 0 by lra. rewrite Rabs_R0. lra. Qed.
Example ex_table : exists T Zv Zc, gen_data_table ex_source (fun _ => ex_source) (fun _ => ex_source) 5 [] [[3 / 10; 2 / 10; 5 / 10]; [1]] [GNormal; GBernoulli; GCategorical 4] [9 / 10; 1; 1 / 2] [0%nat; 1%nat; 0%nat] = Ok (T, Zv, Zc) /\ Zv = [0%nat; 1%nat; 0%nat].
Proof.
  destruct (C66_table ex_source (fun _ => ex_source) (fun _ => ex_source) 5 [] [[3 / 10; 2 / 10; 5 / 10]; [1]] [GNormal; GBernoulli; GCategorical 4] [9 / 10; 1; 1 / 2] [0%nat; 1%nat; 0%nat]) as [T [Zv [Zc [E [Q _]]]]].
  - apply ex_honest.
  - intros; apply ex_honest.
  - intros; apply ex_honest.
  - repeat constructor; cbn; lia.
  - discriminate.
  - reflexivity.
  - repeat constructor; lra.
  - constructor; [split; [exact ex_weighty|cbn; lia]|]. constructor; [|constructor]. split; [|cbn; lia]. split; [repeat constructor; lra|]. cbn. replace (1 + 0 - 1) with 0 by lra. rewrite Rabs_R0. lra.
  - right. split; [reflexivity|]. intros v. cbn. lia.
  - exists T, Zv, Zc. split; [exact E|]. apply Q. discriminate.
Qed.
Example ex_trunc : exists T, gen_column ex_source (GTrunc 0 4) [0%nat; 1%nat; 0%nat] (1 / 2) = Ok T /\ nth_error T 1 = Some (5 / 2).
Proof.
  assert (HK : clusters [0%nat; 1%nat; 0%nat] 2) by (split; [exists 1%nat; cbn; auto|cbn; lia]).
  destruct (proj1 (C66_trunc ex_source 0 4 [0%nat; 1%nat; 0%nat] (1 / 2) 2 ltac:(discriminate) HK)) as [T [E [_ [_ Q]]]].
  - intros [|[|[|[|j]]]] c Hj; cbn in Hj; try discriminate; injection Hj as <-; exists 0%nat; split; try lia; cbn; unfold centre; cbn; lra.
  - exists T. split; [exact E|]. destruct (Q 1%nat 1%nat eq_refl) as [n [_ [_ ->]]]. cbn. f_equal. unfold centre. cbn. lra.
Qed.

Example ex_misfit : gen_data_table ex_source (fun _ => ex_source) (fun _ => ex_source) 5 [] [[3 / 10; 2 / 10; 5 / 10]] [GNormal; GPoisson] [1; 1] [0%nat; 1%nat] = Err AssertionError.
Proof.
  apply C66_misfit; [intros; apply ex_honest| |discriminate|right; discriminate]. constructor; [split; [exact ex_weighty|cbn; lia]|constructor].
Qed.

(** "The separations are values between 0 and 1": at 0 the von Mises column is not made. *)
Theorem C66_separation_refuted : exists g Zs, honest g /\ Zs <> [] /\ gen_column g GVonmises Zs 0 = Err ZeroDivisionError.
Proof.
  exists ex_source, [0%nat]. split; [exact ex_honest|]. split; [discriminate|]. cbn. replace (Rltb 0 0) with false by (symmetry; apply Rltb_false; lra). replace (Reqb 0 0) with true; [reflexivity|]. symmetry. apply Reqb_true. reflexivity.
Qed.
Print Assumptions C66_separation_refuted.
(** "A partition of the columns may be given": its labels must be 0, 1, ... *)
Theorem C66_labels_refuted : exists T1, gen_data_table ex_source (fun _ => ex_source) (fun _ => ex_source) 2 [] [[1]] [GNormal; GNormal] [1; 1] [0%nat; 0%nat] = Ok T1 /\
  gen_data_table ex_source (fun _ => ex_source) (fun _ => ex_source) 2 [] [[1]] [GNormal; GNormal] [1; 1] [1%nat; 1%nat] = Err IndexError.
Proof.
  assert (W : weighty [1]) by (split; [repeat constructor; lra|]; cbn; replace (1 + 0 - 1) with 0 by lra; rewrite Rabs_R0; lra).
  destruct (proj1 (C66_partition ex_source 2 [1] ex_honest) W ltac:(cbn; lia)) as [Zs [E [L Q]]].
  unfold gen_data_table. cbn [rbind length seq combine map rsequence]. rewrite E. cbn [rbind rsequence]. cbn [length Nat.eqb negb nodup in_dec]. 
  cbn. rewrite L. cbn. unfold gen_normal.
  destruct (rows_ok (fun _ _ _ => True) (fun r c => asks ex_source (QNormal (INR c * (5 * 1)) 1) r 0) Zs) with (r0 := 0%nat) as [t [Et _]].
  { intros r c _. rewrite asks_ok by (cbn; apply Rltb_true; lra). eauto. }
  rewrite Et. cbn. eexists. split; reflexivity.
Qed.
Print Assumptions C66_labels_refuted.
(** "A class that is not recognised raises ValueError" (test.py:403-406): the exception is made
    and not raised, and the column is left without hyperparameters. *)
Theorem C66_hypers_refuted : exists k value, (forall n, k <> GCategorical n) /\ k <> GBernoulli /\ k <> GNormal /\ new_hypers k value = Ok [].
Proof. exists GPoisson, 1. repeat split; discriminate. Qed.
Print Assumptions C66_hypers_refuted.
