(** Property C58: the grids of hyperparameters. *)
From Verif Require Import View Grids Classes BaseFacts ListFacts PrimFacts LogSpaceFacts DimFacts ClassFacts ViewFacts P02_LogSpace P06_Dim GammaWitness.
From Coq Require Import List Arith ZArith Reals Bool Lia Lra Permutation.
Import ListNotations.
Local Open Scope R_scope.

(* ------------------------------------------------------------------ *)
(** ** Specification *)

(** The static method of each class. *)
Inductive grids_of : model -> (list R -> nat -> res (list (list ext))) -> Prop :=
| g_bernoulli lgam : grids_of (M_bernoulli lgam) bern_grids
| g_categorical lgam k : grids_of (M_categorical lgam k) cat_grids
| g_geometric lgam : grids_of (M_geometric lgam) geom_grids
| g_exponential lgam : grids_of (M_exponential lgam) expo_grids
| g_poisson lgam : grids_of (M_poisson lgam) pois_grids
| g_normal lgam : grids_of (M_normal lgam) normal_grids
| g_lognormal lgam : grids_of (M_lognormal lgam) lognormal_grids
| g_vonmises lbes i0 i1 : grids_of (M_vonmises lbes) (vm_grids i0 i1)
| g_beta lgam : grids_of (M_beta lgam) no_grids
| g_normal_trunc lgam cdf lo hi : grids_of (M_normal_trunc lgam cdf lo hi) no_grids.

(** A value that a component of the class takes. *)
Definition takes (M : model) (x : R) : Prop := exists s r s', m_inc M s r x [] = (s', Ok tt).
(** The hyperparameters with the values [vs] in their order. *)
Fixpoint assign (M : model) (i : nat) (vs : list R) (h : mH M) : mH M :=
  match vs with [] => h | v :: vs' => assign M (S i) vs' (m_hset M i v h) end.

(* ------------------------------------------------------------------ *)
(** ** Numbers on a line *)

Lemma linspace_length a b n : length (linspace a b n) = n.
Proof. unfold linspace. rewrite map_length, seq_length. reflexivity. Qed.
Lemma linspace_in a b n x : In x (linspace a b n) -> exists i, (i < n)%nat /\ ((n = 1%nat /\ x = a) \/ ((2 <= n)%nat /\ x = a + INR i * ((b - a) / INR (n - 1)))).
Proof.
  unfold linspace. intros H. apply in_map_iff in H. destruct H as [i [<- Hi]]. apply in_seq in Hi. exists i. split; [lia|].
  destruct (Nat.eqb_spec n 1) as [E|E]; [left; auto|right; split; [lia|reflexivity]].
Qed.
(** Its points lie between the two. *)
Lemma linspace_between a b n x : In x (linspace a b n) -> Rmin a b <= x <= Rmax a b.
Proof.
  intros H. apply linspace_in in H. destruct H as [i [Hi [[_ ->]|[Hn ->]]]]; [split; [apply Rmin_l|apply Rmax_l]|].
  assert (Hp : 0 < INR (n - 1)) by (apply lt_0_INR; lia). set (t := INR i / INR (n - 1)).
  assert (Ht : 0 <= t <= 1).
  { unfold t. split; [apply Rmult_le_pos; [apply pos_INR|apply Rlt_le, Rinv_0_lt_compat; exact Hp]|].
    apply Rmult_le_reg_r with (INR (n - 1)); [exact Hp|]. unfold Rdiv. rewrite Rmult_assoc, Rinv_l, Rmult_1_r, Rmult_1_l by lra. apply le_INR. lia. }
  replace (a + INR i * ((b - a) / INR (n - 1))) with (a + t * (b - a)) by (unfold t; field; lra).
  unfold Rmin, Rmax. destruct (Rle_dec a b); split; nra.
Qed.
Lemma log_linspace_ok a b n : 0 < a -> 0 < b -> log_linspace a b n = Ok (map exp (linspace (ln a) (ln b) n)).
Proof. intros Ha Hb. unfold log_linspace, plog. rewrite (proj2 (Rltb_true 0 a) Ha), (proj2 (Rltb_true 0 b) Hb). reflexivity. Qed.
Lemma log_linspace_err a b n : b <= 0 -> exists e, log_linspace a b n = Err e.
Proof.
  intros Hb. unfold log_linspace, plog. destruct (Rltb 0 a); [|exists ValueError; reflexivity]. cbn [rbind].
  replace (Rltb 0 b) with false; [exists ValueError; reflexivity|]. symmetry. apply Rltb_false. lra.
Qed.

(** On the logarithmic scale: [n] points from [a] to [b], each in the same ratio to the
    one before, all between the two. *)
Theorem C58_log_linspace : forall a b n, 0 < a -> 0 < b -> (2 <= n)%nat ->
  exists l, log_linspace a b n = Ok l /\ length l = n /\ nth 0 l 0 = a /\ nth (n - 1) l 0 = b /\
    (exists q, 0 < q /\ forall i, (S i < n)%nat -> nth (S i) l 0 = nth i l 0 * q) /\
    (forall x, In x l -> Rmin a b <= x <= Rmax a b).
Proof.
  intros a b n Ha Hb Hn. exists (map exp (linspace (ln a) (ln b) n)). split; [apply log_linspace_ok; assumption|].
  split; [rewrite map_length; apply linspace_length|].
  assert (Hp : 0 < INR (n - 1)) by (apply lt_0_INR; lia).
  assert (E : forall i, (i < n)%nat -> nth i (map exp (linspace (ln a) (ln b) n)) 0 = exp (ln a + INR i * ((ln b - ln a) / INR (n - 1)))).
  { intros i Hi. rewrite (nth_indep _ 0 (exp 0)) by (rewrite map_length, linspace_length; exact Hi). rewrite map_nth. f_equal.
    unfold linspace. destruct (Nat.eqb_spec n 1); [lia|].
    rewrite (nth_indep _ 0 (ln a + INR 0 * ((ln b - ln a) / INR (n - 1)))) by (rewrite map_length, seq_length; exact Hi).
    rewrite (map_nth (fun i => ln a + INR i * ((ln b - ln a) / INR (n - 1)))), seq_nth by exact Hi. reflexivity. }
  split; [rewrite E by lia; cbn [INR]; rewrite Rmult_0_l, Rplus_0_r; apply exp_ln; exact Ha|].
  split; [rewrite E by lia; replace (ln a + INR (n - 1) * ((ln b - ln a) / INR (n - 1))) with (ln b) by (field; lra); apply exp_ln; exact Hb|].
  split.
  - exists (exp ((ln b - ln a) / INR (n - 1))). split; [apply exp_pos|]. intros i Hi. rewrite !E by lia. rewrite <- exp_plus. f_equal. rewrite S_INR. ring.
  - intros x Hx. apply in_map_iff in Hx. destruct Hx as [y [<- Hy]]. apply linspace_between in Hy.
    unfold Rmin, Rmax in *.
    assert (Hm : forall u v, u <= v -> exp u <= exp v).
    { intros u v [H|H]; [left; apply exp_increasing; exact H|right; rewrite H; reflexivity]. }
    destruct (Rle_dec a b) as [Hab|Hab].
    + assert (Hl : ln a <= ln b) by (destruct Hab as [H|H]; [left; apply ln_increasing; assumption|right; rewrite H; reflexivity]).
      destruct (Rle_dec (ln a) (ln b)); [|contradiction]. rewrite <- (exp_ln a Ha) at 1. rewrite <- (exp_ln b Hb) at 1. split; apply Hm; lra.
    + assert (Hl : ln b < ln a) by (apply ln_increasing; lra).
      destruct (Rle_dec (ln a) (ln b)); [lra|]. rewrite <- (exp_ln a Ha) at 1. rewrite <- (exp_ln b Hb) at 1. split; apply Hm; lra.
Qed.
Print Assumptions C58_log_linspace.

(* ------------------------------------------------------------------ *)
(** ** The grids of the classes *)

Definition pos_grid (n : nat) (g : list R) : Prop := g <> [] /\ (length g <= n)%nat /\ forall x, In x g -> 0 < x.
Lemma log_grid a b n : 0 < a -> 0 < b -> (0 < n)%nat -> exists g, log_linspace a b n = Ok g /\ pos_grid n g.
Proof.
  intros Ha Hb Hn. rewrite log_linspace_ok by assumption. eexists. split; [reflexivity|].
  assert (L : length (map exp (linspace (ln a) (ln b) n)) = n) by (rewrite map_length; apply linspace_length).
  split; [intros E; rewrite E in L; cbn in L; lia|]. split; [lia|]. intros x Hx. apply in_map_iff in Hx. destruct Hx as [y [<- _]]. apply exp_pos.
Qed.
Lemma count_pos (X : list R) : X <> [] -> 1 <= INR (length X).
Proof. intros H. destruct X as [|x X]; [congruence|]. cbn [length]. rewrite S_INR. pose proof (pos_INR (length X)). lra. Qed.

Lemma round_ge r : 1 <= r -> 1 <= np_round r.
Proof.
  intros Hr. destruct (base_Int_part r) as [H1 H2]. assert (Hz : (1 <= Int_part r)%Z).
  { apply Z.lt_pred_le. apply lt_IZR. rewrite <- Z.sub_1_r, minus_IZR. lra. }
  assert (1 <= IZR (Int_part r)) by (apply (IZR_le 1); exact Hz).
  assert (1 <= IZR (Int_part r + 1)) by (rewrite plus_IZR; lra).
  unfold np_round. destruct (Rltb _ _); [assumption|]. destruct (Rltb _ _); [assumption|]. destruct (Z.even _); assumption.
Qed.
Lemma uinsert_in x y l : In y (uinsert x l) <-> y = x \/ In y l.
Proof.
  induction l as [|z l IH]; cbn [uinsert]; [cbn; intuition|]. destruct (Rltb x z); [cbn; intuition|]. destruct (Reqb x z) eqn:E.
  - apply Reqb_true in E. subst. cbn. intuition.
  - cbn [In]. rewrite IH. intuition.
Qed.
Lemma unique_in y l : In y (np_unique l) <-> In y l.
Proof. unfold np_unique. induction l as [|x l IH]; [reflexivity|]. cbn [fold_right]. rewrite uinsert_in, IH. cbn. intuition. Qed.
Lemma uinsert_length x l : (length (uinsert x l) <= S (length l))%nat.
Proof. induction l as [|z l IH]; cbn; [lia|]. destruct (Rltb x z); [cbn; lia|]. destruct (Reqb x z); cbn; lia. Qed.
Lemma unique_length l : (length (np_unique l) <= length l)%nat.
Proof. unfold np_unique. induction l as [|x l IH]; [cbn; lia|]. cbn [fold_right length]. pose proof (uinsert_length x (fold_right uinsert [] l)). lia. Qed.
Lemma pois_grid (X : list R) n : X <> [] -> (0 < n)%nat -> pos_grid n (np_unique (map np_round (linspace 1 (INR (length X)) n))).
Proof.
  intros HX Hn. pose proof (count_pos X HX) as HN. split.
  - intros E. assert (L := linspace_length 1 (INR (length X)) n). destruct (linspace 1 (INR (length X)) n) as [|x l] eqn:El; [cbn in L; lia|].
    assert (Hi : In (np_round x) (np_unique (map np_round (x :: l)))) by (apply unique_in; left; reflexivity). rewrite E in Hi. exact Hi.
  - split; [pose proof (unique_length (map np_round (linspace 1 (INR (length X)) n))) as U; rewrite map_length, linspace_length in U; exact U|].
    intros x Hx. apply unique_in, in_map_iff in Hx. destruct Hx as [y [<- Hy]]. apply linspace_between in Hy.
    rewrite Rmin_left in Hy by exact HN. pose proof (round_ge y). lra.
Qed.
Lemma var_nonneg l : 0 <= np_var l * INR (length l).
Proof.
  unfold np_var. set (m := Rsum l / INR (length l)). assert (0 <= Rsum (map (fun x => (x - m) * (x - m)) l)).
  { clearbody m. induction l as [|x l IH]; cbn [map]; [cbn; lra|]. change (Rsum (?a :: ?l)) with (a + Rsum l). pose proof (Rle_0_sqr (x - m)) as Q. unfold Rsqr in Q. lra. }
  apply Rmult_le_pos; [|apply pos_INR]. destruct l as [|x l]; [cbn; unfold Rdiv; rewrite Rmult_0_l; lra|].
  apply Rmult_le_pos; [assumption|]. apply Rlt_le, Rinv_0_lt_compat, lt_0_INR. cbn. lia.
Qed.
Lemma max_in l x : In (fold_left Rmax l x) (x :: l).
Proof.
  revert x. induction l as [|y l IH]; intros x; [left; reflexivity|]. cbn [fold_left]. destruct (IH (Rmax x y)) as [E|E].
  - rewrite <- E. unfold Rmax. destruct (Rle_dec x y); [right; left|left]; reflexivity.
  - right. right. exact E.
Qed.
Lemma takes_lognormal lgam x : takes (M_lognormal lgam) x -> 0 < x.
Proof.
  intros [s [r [s' E]]]. cbn in E. unfold prim_incorporate in E. destruct (dmem r (p_data s)); [discriminate|]. cbn in E.
  destruct (Rleb x 0) eqn:Ex; [discriminate|]. apply Rnot_le_lt. intros H. apply Rleb_true in H. congruence.
Qed.

(** What the components of a class ask of their hyperparameters. *)
Inductive learns : forall M : model, (list R -> nat -> res (list (list ext))) -> (mH M -> Prop) -> Prop :=
| l_bernoulli lgam : learns (M_bernoulli lgam) bern_grids (fun h => 0 < fst h /\ 0 < snd h)
| l_categorical lgam k : learns (M_categorical lgam k) cat_grids (fun h => 0 < h)
| l_geometric lgam : learns (M_geometric lgam) geom_grids (fun h => 0 < fst h /\ 0 < snd h)
| l_exponential lgam : learns (M_exponential lgam) expo_grids (fun h => 0 < fst h /\ 0 < snd h)
| l_poisson lgam : learns (M_poisson lgam) pois_grids (fun h => 0 < fst h /\ 0 < snd h)
| l_normal lgam : learns (M_normal lgam) normal_grids (fun h => 0 < n_r h /\ 0 < n_s h /\ 0 < n_nu h)
| l_lognormal lgam : learns (M_lognormal lgam) lognormal_grids (fun h => 0 < n_r h /\ 0 < n_s h /\ 0 < n_nu h)
| l_vonmises lbes i0 i1 : learns (M_vonmises lbes) (vm_grids i0 i1) (fun h => 0 < v_a h /\ 0 < v_b h <= 2 * PI /\ 0 < v_k h)
| l_beta lgam : learns (M_beta lgam) no_grids (fun _ => True)
| l_normal_trunc lgam cdf lo hi : learns (M_normal_trunc lgam cdf lo hi) no_grids (fun _ => True).

(** The von Mises class estimates a concentration; here it is a positive number. *)
Definition estimated (G : list R -> nat -> res (list (list ext))) (X : list R) : Prop :=
  forall i0 i1, G = vm_grids i0 i1 ->
    exists k, estimate_kappa i0 i1 (length X) (Rsum (map sin X)) (Rsum (map cos X)) = Fin k /\ 0 < k.

Lemma grids_fine M G V X n : learns M G V -> X <> [] -> (forall x, In x X -> takes M x) -> (0 < n)%nat -> estimated G X ->
  exists gs, G X n = Ok (map (map Fin) gs) /\ length gs = m_nhyp M /\
    (forall g, In g gs -> g <> [] /\ (length g <= n)%nat) /\
    (forall i g h v, nth_error gs i = Some g -> In v g -> V h -> V (m_hset M i v h)) /\
    (forall vs h, Forall2 (@In R) vs gs -> V (assign M 0 vs h)).
Proof.
  intros HG HX HT Hn HE. pose proof (count_pos X HX) as HN.
  assert (P2 : forall (a b : list R), pos_grid n a -> pos_grid n b ->
    (forall g, In g [a; b] -> g <> [] /\ (length g <= n)%nat) /\
    (forall i g (h : R * R) v, nth_error [a; b] i = Some g -> In v g -> 0 < fst h /\ 0 < snd h -> 0 < fst (hset_pair i v h) /\ 0 < snd (hset_pair i v h)) /\
    (forall vs (h : R * R), Forall2 (@In R) vs [a; b] -> exists v w, vs = [v; w] /\ 0 < v /\ 0 < w)).
  { intros a b [A1 [A2 A3]] [B1 [B2 B3]]. split; [intros g [<-|[<-|[]]]; auto|]. split.
    - intros [|[|i]] g h v E Hv [H1 H2]; cbn in E; [injection E as <-|injection E as <-|destruct i; discriminate]; cbn; auto.
    - intros vs h F. inversion F as [|v va x xs Hv F2]; subst. inversion F2 as [|w wa y ys Hw F3]; subst. inversion F3. subst. exists v, w. auto. }
  assert (P4 : forall (a b c e : list R), (a <> [] /\ (length a <= n)%nat) -> pos_grid n b -> pos_grid n c -> pos_grid n e ->
    (forall g, In g [a; b; c; e] -> g <> [] /\ (length g <= n)%nat) /\
    (forall i g h v, nth_error [a; b; c; e] i = Some g -> In v g -> 0 < n_r h /\ 0 < n_s h /\ 0 < n_nu h ->
       0 < n_r (hset_normal i v h) /\ 0 < n_s (hset_normal i v h) /\ 0 < n_nu (hset_normal i v h)) /\
    (forall vs, Forall2 (@In R) vs [a; b; c; e] -> exists m r s nu, vs = [m; r; s; nu] /\ 0 < r /\ 0 < s /\ 0 < nu)).
  { intros a b c e HA [B1 [B2 B3]] [C1 [C2 C3]] [E1 [E2 E3]]. split; [intros g [<-|[<-|[<-|[<-|[]]]]]; auto|]. split.
    - intros [|[|[|[|i]]]] g h v E Hv [H1 [H2 H3]]; cbn in E; try (injection E as <-); try (destruct i; discriminate); cbn; auto.
    - intros vs F. inversion F as [|v1 va x xs Hv1 F2]; subst. inversion F2 as [|v2 wa y ys Hv2 F3]; subst.
      inversion F3 as [|v3 wa3 y3 ys3 Hv3 F4]; subst. inversion F4 as [|v4 wa4 y4 ys4 Hv4 F5]; subst. inversion F5. subst. exists v1, v2, v3, v4. auto. }
  destruct HG.
  - destruct (log_grid 1 (INR (length X)) n) as [a [Ea Ha]]; [lra|lra|exact Hn|]. destruct (P2 a a Ha Ha) as [Q1 [Q2 Q3]].
    exists [a; a]. unfold bern_grids, both. rewrite Ea. split; [reflexivity|]. split; [reflexivity|]. split; [exact Q1|]. split; [exact Q2|].
    intros vs h F. destruct (Q3 vs h F) as [v [w [-> H]]]. exact H.
  - destruct (log_grid 1 (INR (length X)) n) as [a [Ea [A1 [A2 A3]]]]; [lra|lra|exact Hn|].
    exists [a]. unfold cat_grids. rewrite Ea. split; [reflexivity|]. split; [reflexivity|]. split; [intros g [<-|[]]; auto|]. split.
    + intros [|i] g h v E Hv H1; cbn in E; [injection E as <-|destruct i; discriminate]. cbn. auto.
    + intros vs h F. inversion F as [|v va x xs Hv F2]; subst. inversion F2. subst. cbn. auto.
  - destruct (log_grid 1 (INR (length X) / 2) n) as [a [Ea Ha]]; [lra|lra|exact Hn|].
    destruct (log_grid (1 / 10) (INR (length X) / 2) n) as [b [Eb Hb]]; [lra|lra|exact Hn|]. destruct (P2 a b Ha Hb) as [Q1 [Q2 Q3]].
    exists [a; b]. unfold geom_grids, both. rewrite Ea, Eb. split; [reflexivity|]. split; [reflexivity|]. split; [exact Q1|]. split; [exact Q2|].
    intros vs h F. destruct (Q3 vs h F) as [v [w [-> H]]]. exact H.
  - destruct (log_grid (1 / 2) (INR (length X)) n) as [a [Ea Ha]]; [lra|lra|exact Hn|]. destruct (P2 a a Ha Ha) as [Q1 [Q2 Q3]].
    exists [a; a]. unfold expo_grids, both. rewrite Ea. split; [reflexivity|]. split; [reflexivity|]. split; [exact Q1|]. split; [exact Q2|].
    intros vs h F. destruct (Q3 vs h F) as [v [w [-> H]]]. exact H.
  - destruct (log_grid (1 / 10) (INR (length X)) n) as [b [Eb Hb]]; [lra|lra|exact Hn|]. pose proof (pois_grid X n HX Hn) as Ha.
    destruct (P2 _ b Ha Hb) as [Q1 [Q2 Q3]]. eexists [_; b]. unfold pois_grids. rewrite Eb. split; [reflexivity|]. split; [reflexivity|].
    split; [exact Q1|]. split; [exact Q2|]. intros vs h F. destruct (Q3 vs h F) as [v [w [-> H]]]. exact H.
  - pose proof (var_nonneg X) as HV. destruct X as [|x0 X']; [congruence|]. set (X := x0 :: X') in *.
    assert (Hi : 0 < 1 / (INR (length X) + 1)) by (apply Rdiv_lt_0_compat; lra).
    destruct (log_grid (1 / (INR (length X) + 1)) (INR (length X) + 1) n) as [r [Er Hr]]; [exact Hi|lra|exact Hn|].
    destruct (log_grid ((np_var X * INR (length X) + 1) / 100) (np_var X * INR (length X) + 1) n) as [s [Es Hs]]; [lra|lra|exact Hn|].
    destruct (log_grid 1 (INR (length X) + 1) n) as [u [Eu Hu]]; [lra|lra|exact Hn|].
    set (m := linspace (fold_left Rmin X' x0) (fold_left Rmax X' x0 + 5) n).
    assert (Hm : m <> [] /\ (length m <= n)%nat).
    { unfold m. pose proof (linspace_length (fold_left Rmin X' x0) (fold_left Rmax X' x0 + 5) n) as L. split; [intros E; rewrite E in L; cbn in L; lia|lia]. }
    destruct (P4 m r s u Hm Hr Hs Hu) as [Q1 [Q2 Q3]]. exists [m; r; s; u]. split.
    + unfold normal_grids, both. cbn [pmin pmax X rbind]. fold X. rewrite Er. cbn [rbind]. rewrite Es. cbn [rbind]. rewrite Eu. reflexivity.
    + split; [reflexivity|]. split; [exact Q1|]. split; [exact Q2|]. intros vs h F. destruct (Q3 vs F) as [v1 [v2 [v3 [v4 [-> H]]]]]. exact H.
  - destruct X as [|x0 X']; [congruence|]. set (X := x0 :: X') in *.
    assert (Hp : 0 < fold_left Rmax X' x0) by (apply (takes_lognormal lgam), HT, max_in).
    destruct (log_grid (1 / 10000) (fold_left Rmax X' x0) n) as [m [Em [M1 [M2 M3]]]]; [lra|exact Hp|exact Hn|].
    destruct (log_grid (1 / 10) (INR (length X)) n) as [g [Eg Hg]]; [lra|lra|exact Hn|].
    destruct (P4 m g g g (conj M1 M2) Hg Hg Hg) as [Q1 [Q2 Q3]]. exists [m; g; g; g]. split.
    + unfold lognormal_grids. cbn [pmax X rbind]. fold X. rewrite Em. cbn [rbind]. rewrite Eg. reflexivity.
    + split; [reflexivity|]. split; [exact Q1|]. split; [exact Q2|]. intros vs h F. destruct (Q3 vs F) as [v1 [v2 [v3 [v4 [-> H]]]]]. exact H.
  - destruct (HE i0 i1 eq_refl) as [k [Ek Hk]]. pose proof PI_RGT_0 as HPI.
    assert (Hi : 0 < 1 / INR (length X)) by (apply Rdiv_lt_0_compat; lra).
    destruct (log_grid (1 / INR (length X)) (INR (length X)) n) as [a [Ea [A1 [A2 A3]]]]; [exact Hi|lra|exact Hn|].
    assert (Hn1 : 1 <= INR n) by (apply (le_INR 1); lia).
    set (b := linspace (2 * PI / INR n) (2 * PI) n). set (c := linspace k (INR (length X) * k) n).
    assert (Hne : forall u v, linspace u v n <> [] /\ (length (linspace u v n) <= n)%nat).
    { intros u v. pose proof (linspace_length u v n) as L. split; [intros E; rewrite E in L; cbn in L; lia|lia]. }
    assert (Hlo : 0 < 2 * PI / INR n) by (apply Rdiv_lt_0_compat; lra).
    assert (Hle : 2 * PI / INR n <= 2 * PI).
    { apply Rmult_le_reg_r with (INR n); [lra|]. unfold Rdiv. rewrite Rmult_assoc, Rinv_l by lra. nra. }
    assert (Hb : forall v, In v b -> 0 < v <= 2 * PI).
    { intros v Hv. apply linspace_between in Hv. rewrite Rmin_left, Rmax_right in Hv by exact Hle. lra. }
    assert (Hc : forall v, In v c -> 0 < v).
    { intros v Hv. apply linspace_between in Hv. rewrite Rmin_left in Hv by nra. lra. }
    exists [a; b; c]. split.
    + unfold vm_grids. rewrite Ek. destruct (Nat.eqb_spec (length X) 0) as [E0|_]; [destruct X; [congruence|discriminate]|].
      rewrite Ea. cbn [rbind emul elinspace map]. reflexivity.
    + split; [reflexivity|]. split; [intros g [<-|[<-|[<-|[]]]]; [auto|apply Hne|apply Hne]|]. split.
      * intros [|[|[|i]]] g h v E Hv [H1 [H2 H3]]; cbn in E; try (injection E as <-); try (destruct i; discriminate); cbn; auto.
      * intros vs h F. inversion F as [|v1 va x xs Hv1 F2]; subst. inversion F2 as [|v2 wa y ys Hv2 F3]; subst.
        inversion F3 as [|v3 wa3 y3 ys3 Hv3 F4]; subst. inversion F4. subst. cbn. auto.
  - exists []. split; [reflexivity|]. split; [reflexivity|]. split; [intros g []|]. split; [intros; exact I|]. intros; exact I.
  - exists []. split; [reflexivity|]. split; [reflexivity|]. split; [intros g []|]. split; [intros; exact I|]. intros; exact I.
Qed.
Lemma fine_set M G V h s : learns M G V -> V h -> exists s', m_set_hypers M s h = (s', Ok tt).
Proof.
  intros H. destruct H; cbn; unfold prim_set_hypers; cbn; intros HV.
  all: try (eexists; reflexivity).
  all: try (destruct HV as [H1 H2]; rewrite (proj2 (Rltb_true _ _) H1), (proj2 (Rltb_true _ _) H2); eexists; reflexivity).
  - rewrite (proj2 (Rltb_true _ _) HV). eexists; reflexivity.
  - unfold nhyp_ok. destruct HV as [H1 [H2 H3]]. rewrite (proj2 (Rltb_true _ _) H1), (proj2 (Rltb_true _ _) H2), (proj2 (Rltb_true _ _) H3). eexists; reflexivity.
  - unfold nhyp_ok. destruct HV as [H1 [H2 H3]]. rewrite (proj2 (Rltb_true _ _) H1), (proj2 (Rltb_true _ _) H2), (proj2 (Rltb_true _ _) H3). eexists; reflexivity.
  - destruct HV as [H1 [[H2 H2'] H3]]. rewrite (proj2 (Rltb_true _ _) H1), (proj2 (Rltb_true _ _) H2), (proj2 (Rleb_true _ _) H2'), (proj2 (Rleb_true 0 (v_b h))) by lra.
    eexists; reflexivity.
Qed.
Lemma learns_grids M G V : learns M G V -> grids_of M G.
Proof. intros H. destruct H; constructor. Qed.
Lemma grids_learn M G : grids_of M G -> exists V, learns M G V.
Proof. intros H. destruct H; eexists; constructor. Qed.

(** For a column with a value, all of them such as the class takes, there is a grid for
    every hyperparameter, and whatever is picked from the grids is admitted. *)
Theorem C58_valid : forall M G X n, grids_of M G -> X <> [] -> (forall x, In x X -> takes M x) -> (0 < n)%nat -> estimated G X ->
  exists gs, G X n = Ok (map (map Fin) gs) /\ length gs = m_nhyp M /\
    (forall g, In g gs -> g <> [] /\ (length g <= n)%nat) /\
    forall vs h s, Forall2 (@In R) vs gs -> exists s', m_set_hypers M s (assign M 0 vs h) = (s', Ok tt).
Proof.
  intros M G X n HG HX HT Hn HE. destruct (grids_learn M G HG) as [V HV].
  destruct (grids_fine M G V X n HV HX HT Hn HE) as [gs [E [L [Ne [_ Ha]]]]]. exists gs. split; [exact E|]. split; [exact L|]. split; [exact Ne|].
  intros vs h s F. apply (fine_set M G V _ s HV). apply Ha. exact F.
Qed.
Print Assumptions C58_valid.

(* ------------------------------------------------------------------ *)
(** ** Choosing hyperparameters from the grids *)

Lemma picks_assign M grids picks h : (forall i g, nth_error grids i = Some g -> (picks i < length g)%nat) ->
  forall gs k, (forall i, nth_error gs i = nth_error grids (k + i)) ->
  exists ps vs, rsequence (map (fun i => match nth_error grids i with
              | Some g => match nth_error g (picks i) with Some v => Ok (i, v) | None => Err ValueError end
              | None => Err KeyError end) (seq k (length gs))) = Ok ps /\
    Forall2 (@In R) vs gs /\ fold_left (fun h iv => m_hset M (fst iv) (snd iv) h) ps h = assign M k vs h.
Proof.
  intros Hp gs. revert h. induction gs as [|g gs IH]; intros h k Hk.
  - exists [], []. split; [reflexivity|]. split; [constructor|reflexivity].
  - pose proof (Hk 0%nat) as H0. cbn in H0. rewrite Nat.add_0_r in H0. symmetry in H0.
    destruct (nth_error g (picks k)) as [v|] eqn:Ev; [|apply nth_error_None in Ev; pose proof (Hp k g H0); lia].
    destruct (IH (m_hset M k v h) (S k)) as [ps [vs [E [F A]]]].
    { intros i. pose proof (Hk (S i)) as H. cbn in H. rewrite H. f_equal. lia. }
    exists ((k, v) :: ps), (v :: vs). split.
    + cbn [length seq map]. rewrite H0, Ev. cbn [rsequence]. rewrite E. reflexivity.
    + split; [constructor; [eapply nth_error_In; exact Ev|exact F]|]. exact A.
Qed.

(** In a column of a collapsed class other than the von Mises, whatever happened to it
    before, building the grids from its data and then choosing all hyperparameters anew
    returns, with hyperparameters that the class admits. *)
Theorem C58_transition : forall M G V X n h set inputs tape ops d tr picks draws order,
  known M -> (forall lbes, M <> M_vonmises lbes) -> learns M G V -> (forall h, V h -> collapsed M h) ->
  dim_run M (dim_new M h set inputs tape) ops = (d, tr) -> (d_set d = true -> V (d_hyp d)) ->
  X <> [] -> (forall x, In x X -> takes M x) -> (0 < n)%nat -> estimated G X ->
  (forall i k, (0 < k)%nat -> (picks i k < k)%nat) -> (forall j, draw_ok (draws j)) -> (forall i, In i order -> (i < m_nhyp M)%nat) ->
  exists gs d1 d2, G X n = Ok (map (map Fin) gs) /\
    dim_transition_grids M d gs (fun i => picks i (length (nth i gs []))) = (d1, Ok tt) /\
    dim_transition_hypers M draws order d1 = (d2, Ok tt) /\ V (d_hyp d2).
Proof.
  intros M G V X n h set inputs tape ops d tr picks draws order HM HN HG HV E0 Hset HX HT Hn HE Hp Hd Ho.
  destruct (grids_fine M G V X n HG HX HT Hn HE) as [gs [Eg [L [Ne [Hs Ha]]]]]. exists gs.
  pose proof (known_laws M HM) as HL.
  pose proof (run_inv M _ HL _ _ _ (dinv_new _ _ HL h set inputs tape) E0) as Hi.
  assert (Hpk : forall i g, nth_error gs i = Some g -> (picks i (length (nth i gs [])) < length g)%nat).
  { intros i g E. rewrite (nth_error_nth _ _ [] E). apply Hp. destruct (Ne g (nth_error_In _ _ E)) as [N _]. destruct g; [congruence|cbn; lia]. }
  assert (G1 : exists d1, dim_transition_grids M d gs (fun i => picks i (length (nth i gs []))) = (d1, Ok tt) /\ V (d_hyp d1) /\ d_grids d1 = gs).
  { unfold dim_transition_grids. destruct (d_set d) eqn:Es.
    - eexists. split; [reflexivity|]. split; [apply Hset; reflexivity|reflexivity].
    - destruct (picks_assign M gs (fun i => picks i (length (nth i gs []))) (d_hyp d) Hpk gs 0) as [ps [vs [E [F A]]]]; [reflexivity|].
      rewrite E. eexists. split; [reflexivity|]. split; [|reflexivity]. cbn [d_hyp fresh_aux]. rewrite A. apply Ha. exact F. }
  destruct G1 as [d1 [E1 [V1 Gd]]]. exists d1.
  assert (Hi1 : dinv M (reach M) d1).
  { eapply (run_inv M [DTransGrids gs (fun i => picks i (length (nth i gs [])))] HL d d1); [exact Hi|]. cbn. rewrite E1. reflexivity. }
  destruct (each_total M V HM HV HN draws Hd order d1 Hi1 V1) as [d2 [E2 [Hi2 V2]]].
  { intros i Hin. rewrite Gd. destruct (nth_error gs i) as [g|] eqn:E; [|apply nth_error_None in E; pose proof (Ho i Hin); lia].
    exists g. split; [reflexivity|]. split; [apply (Ne g (nth_error_In _ _ E))|]. intros h' v Hh Hv. apply (Hs i g h' v E Hv Hh). }
  destruct (set_score_total M V HM HV HN d2 (d_hyp d2) Hi2 V2) as [d3 [t [E3 [_ [_ [Hh _]]]]]].
  exists (fresh_aux M d3). split; [exact Eg|]. split; [exact E1|]. split; [unfold dim_transition_hypers; rewrite E2, E3; reflexivity|].
  cbn [fresh_aux d_hyp]. rewrite Hh. exact V2.
Qed.
Print Assumptions C58_transition.

(** A column without any value: the grids of every collapsed class raise. *)
Theorem C58_empty : forall M G n, grids_of M G -> m_coll M = true -> exists e, G [] n = Err e.
Proof.
  intros M G n HG Hc. destruct HG; try discriminate Hc.
  - unfold bern_grids, both. destruct (log_linspace_err 1 0 n) as [e E]; [lra|]. cbn [length INR]. rewrite E. exists e. reflexivity.
  - unfold cat_grids. destruct (log_linspace_err 1 0 n) as [e E]; [lra|]. cbn [length INR]. rewrite E. exists e. reflexivity.
  - unfold geom_grids, both. destruct (log_linspace_err 1 (0 / 2) n) as [e E]; [lra|]. cbn [length INR]. rewrite E. exists e. reflexivity.
  - unfold expo_grids, both. destruct (log_linspace_err (1 / 2) 0 n) as [e E]; [lra|]. cbn [length INR]. rewrite E. exists e. reflexivity.
  - unfold pois_grids. destruct (log_linspace_err (1 / 10) 0 n) as [e E]; [lra|]. cbn [length INR]. rewrite E. exists e. reflexivity.
  - exists ValueError. reflexivity.
  - exists ValueError. reflexivity.
  - exists ZeroDivisionError. reflexivity.
Qed.
Print Assumptions C58_empty.
Theorem C58_empty_refuted : exists M G X n, grids_of M G /\ (forall x, In x X -> takes M x) /\ (0 < n)%nat /\ estimated G X /\
  forall gs, G X n <> Ok gs.
Proof.
  exists (M_normal lgam_w), normal_grids, [], 30%nat. split; [constructor|]. split; [intros x []|]. split; [lia|]. split.
  - intros i0 i1 E. exfalso. pose proof (f_equal (fun f => f [] 1%nat) E) as E1. discriminate E1.
  - intros gs. discriminate.
Qed.
Print Assumptions C58_empty_refuted.

(** For the cells of a column (dim.py:176-179): missing ones play no part, and a column
    with nothing but missing cells has no grids. *)
Lemma present_in X x : In x (present X) <-> In (Some x) X.
Proof.
  unfold present. rewrite in_concat. split.
  - intros [l [Hl Hx]]. apply in_map_iff in Hl. destruct Hl as [[r|] [<- Hr]]; [|destruct Hx]. destruct Hx as [<-|[]]. exact Hr.
  - intros H. exists [x]. split; [|left; reflexivity]. apply in_map_iff. exists (Some x). auto.
Qed.
Theorem C58_column : forall M G (X : list cell) n, grids_of M G -> (0 < n)%nat -> (forall x, In (Some x) X -> takes M x) -> estimated G (present X) ->
  ((exists x, In (Some x) X) -> exists gs, G (present X) n = Ok (map (map Fin) gs) /\ length gs = m_nhyp M /\
     forall vs h s, Forall2 (@In R) vs gs -> exists s', m_set_hypers M s (assign M 0 vs h) = (s', Ok tt)) /\
  ((forall x, ~ In (Some x) X) -> m_coll M = true -> exists e, G (present X) n = Err e) /\
  (forall Y, filter (fun x => match x with Some _ => true | None => false end) X = filter (fun x => match x with Some _ => true | None => false end) Y ->
     G (present X) n = G (present Y) n).
Proof.
  intros M G X n HG Hn HT HE. split; [|split].
  - intros [x Hx]. apply present_in in Hx.
    destruct (C58_valid M G (present X) n HG) as [gs [E [L [_ H]]]]; [intros E; rewrite E in Hx; destruct Hx|intros y Hy; apply HT, present_in, Hy|exact Hn|exact HE|].
    exists gs. auto.
  - intros Hno Hc. assert (E : present X = []).
    { destruct (present X) as [|x l] eqn:E; [reflexivity|]. destruct (Hno x). apply present_in. rewrite E. left. reflexivity. }
    rewrite E. apply (C58_empty M G n HG Hc).
  - intros Y E. assert (P : forall Z, present Z = present (filter (fun x => match x with Some _ => true | None => false end) Z)).
    { induction Z as [|[r|] Z IH]; [reflexivity| |exact IH]. cbn. f_equal. exact IH. }
    rewrite (P X), (P Y), E. reflexivity.
Qed.
Print Assumptions C58_column.

(** *** The concentration of the von Mises class *)

(** What scipy's i0 and i1 return for zero and infinity. *)
Definition bessel_ends (i0 i1 : ext -> ext) : Prop :=
  i0 PInf = PInf /\ i1 PInf = PInf /\ i0 (Fin 0) = Fin 1 /\ i1 (Fin 0) = Fin 0.
Lemma step_nan i0 i1 r : kappa_step i0 i1 r NaN = NaN.
Proof. reflexivity. Qed.
Lemma step_inf i0 i1 r : bessel_ends i0 i1 -> kappa_step i0 i1 r PInf = NaN.
Proof. intros [H1 [H2 _]]. unfold kappa_step. rewrite H1, H2. reflexivity. Qed.
Lemma step_zero i0 i1 r : bessel_ends i0 i1 -> kappa_step i0 i1 r (Fin 0) = NaN.
Proof.
  intros [_ [_ [H1 H2]]]. unfold kappa_step. rewrite H1, H2.
  replace (ediv (Fin 0) (Fin 1)) with (Fin 0) by (unfold ediv; rewrite (proj2 (Reqb_false 1 0)) by lra; f_equal; lra).
  replace (ediv (Fin 1) (Fin 0)) with PInf.
  - cbv zeta. replace (emul PInf (Fin 0)) with NaN; [reflexivity|]. unfold emul. rewrite (proj2 (Reqb_true 0 0)) by reflexivity. reflexivity.
  - unfold ediv. rewrite (proj2 (Reqb_true 0 0)) by reflexivity. rewrite (proj2 (Reqb_false 1 0)) by lra. rewrite (proj2 (Rltb_true 0 1)) by lra. reflexivity.
Qed.
Lemma sums_equal x n : Rsum (map sin (repeat x n)) = INR n * sin x /\ Rsum (map cos (repeat x n)) = INR n * cos x.
Proof. induction n as [|n [I1 I2]]; [cbn; lra|]. cbn [repeat map]. change (Rsum (?a :: ?l)) with (a + Rsum l). rewrite I1, I2, S_INR. lra. Qed.

(** The estimate is never NaN nor negative; it is a positive number for one value, for
    equal values and for values whose directions cancel. *)
Theorem C58_kappa : forall i0 i1 (X : list R), bessel_ends i0 i1 ->
  let k := estimate_kappa i0 i1 (length X) (Rsum (map sin X)) (Rsum (map cos X)) in
  (k = PInf \/ exists r, k = Fin r /\ 0 <= r) /\
  ((length X = 1%nat \/ (exists x n, X = repeat x n) \/ (Rsum (map sin X) = 0 /\ Rsum (map cos X) = 0)) -> exists r, k = Fin r /\ 0 < r).
Proof.
  intros i0 i1 X HB k. split.
  - unfold k, estimate_kappa. destruct (length X) as [|[|n]].
    + right. eexists. split; [reflexivity|]. lra.
    + right. eexists. split; [reflexivity|]. pose proof PI_RGT_0. lra.
    + destruct (kappa_step _ _ _ (kappa_step _ _ _ _)); [right; eexists; split; [reflexivity|apply Rabs_pos]|left; reflexivity|left; reflexivity|].
      right. eexists. split; [reflexivity|]. lra.
  - intros H. unfold k, estimate_kappa. destruct (length X) as [|[|n]] eqn:EL.
    + eexists. split; [reflexivity|]. lra.
    + eexists. split; [reflexivity|]. pose proof PI_RGT_0. lra.
    + assert (Hn : INR (S (S n)) <> 0) by (apply not_0_INR; lia).
      destruct H as [H|[[x [m ->]]|[Hs Hc]]]; [discriminate| |].
      * rewrite repeat_length in EL. subst m. destruct (sums_equal x (S (S n))) as [-> ->].
        replace (INR (S (S n)) * sin x / INR (S (S n))) with (sin x) by (field; exact Hn).
        replace (INR (S (S n)) * cos x / INR (S (S n))) with (cos x) by (field; exact Hn).
        pose proof (sin2_cos2 x) as SC. unfold Rsqr in SC. rewrite SC. rewrite sqrt_1.
        replace (ediv (Fin (1 * (2 - 1))) (Fin (1 - 1))) with PInf.
        { rewrite (step_inf i0 i1 1 HB), !step_nan. eexists. split; [reflexivity|]. lra. }
        unfold ediv. rewrite (proj2 (Reqb_true (1 - 1) 0)) by lra. rewrite (proj2 (Reqb_false (1 * (2 - 1)) 0)) by lra.
        rewrite (proj2 (Rltb_true 0 (1 * (2 - 1)))) by lra. reflexivity.
      * rewrite Hs, Hc. replace (0 / INR (S (S n)) * (0 / INR (S (S n))) + 0 / INR (S (S n)) * (0 / INR (S (S n)))) with 0 by (field; exact Hn).
        rewrite sqrt_0. replace (ediv (Fin (0 * (2 - 0))) (Fin (1 - 0))) with (Fin 0).
        { rewrite (step_zero i0 i1 0 HB), !step_nan. eexists. split; [reflexivity|]. lra. }
        unfold ediv. rewrite (proj2 (Reqb_false (1 - 0) 0)) by lra. f_equal. lra.
Qed.
Print Assumptions C58_kappa.

(** Each step of the estimate is a step of Newton's method for the equation
    I1(k) / I0(k) = rbar, which the maximum-likelihood concentration solves; [b0] and [b1]
    are any functions with the derivatives of the Bessel functions, I0' = I1 and
    I1' = I0 - I1 / k. *)
Theorem C58_newton : forall i0 i1 (b0 b1 : R -> R) r k,
  i0 (Fin k) = Fin (b0 k) -> i1 (Fin k) = Fin (b1 k) -> k <> 0 -> b0 k <> 0 ->
  derivable_pt_lim b0 k (b1 k) -> derivable_pt_lim b1 k (b0 k - b1 k / k) ->
  exists slope, derivable_pt_lim (b1 / b0)%F k slope /\
    (slope <> 0 -> kappa_step i0 i1 r (Fin k) = Fin (k - ((b1 / b0)%F k - r) / slope)).
Proof.
  intros i0 i1 b0 b1 r k E0 E1 Hk Hb D0 D1. exists (1 - b1 k / b0 k * (b1 k / b0 k) - 1 / k * (b1 k / b0 k)). split.
  - replace (1 - b1 k / b0 k * (b1 k / b0 k) - 1 / k * (b1 k / b0 k))
      with (((b0 k - b1 k / k) * b0 k - b1 k * b1 k) / Rsqr (b0 k)) by (unfold Rsqr; field; auto).
    apply derivable_pt_lim_div; assumption.
  - intros Hs. unfold kappa_step. rewrite E0, E1.
    assert (ED : forall a b, b <> 0 -> ediv (Fin a) (Fin b) = Fin (a / b)) by (intros a b H; unfold ediv; rewrite (proj2 (Reqb_false b 0)) by exact H; reflexivity).
    rewrite (ED _ _ Hb). cbv zeta. rewrite (ED _ _ Hk). cbn [emul esub eadd eopp].
    rewrite ED by (intros H; apply Hs; lra). cbn [esub eadd eopp]. f_equal.
Qed.
Print Assumptions C58_newton.

(** So the grids of C58_valid exist for such a column of angles. *)
Lemma estimated_vm i0 i1 (X : list R) : (exists k, estimate_kappa i0 i1 (length X) (Rsum (map sin X)) (Rsum (map cos X)) = Fin k /\ 0 < k) ->
  estimated (vm_grids i0 i1) X.
Proof.
  intros H j0 j1 E. destruct X as [|x X']; [exists (/ 1000000); split; [reflexivity|lra]|].
  set (X := x :: X') in *. assert (HX : X <> []) by discriminate. pose proof (count_pos X HX) as HN.
  assert (Hi : 0 < 1 / INR (length X)) by (apply Rdiv_lt_0_compat; lra).
  pose proof (f_equal (fun f => f X 1%nat) E) as E1. cbv beta in E1. unfold vm_grids in E1.
  replace (length X =? 0)%nat with false in E1 by reflexivity. rewrite log_linspace_ok in E1 by lra. cbn [rbind] in E1.
  destruct H as [k [Ek Hk]]. rewrite Ek in E1. exists k. split; [|exact Hk].
  destruct (estimate_kappa j0 j1 (length X) (Rsum (map sin X)) (Rsum (map cos X))) as [kj| | |]; cbn [emul elinspace] in E1; injection E1 as E1; [|discriminate E1..].
  f_equal. symmetry. exact E1.
Qed.

(** *** Single classes *)

Lemma linspace_nth a b n i : (2 <= n)%nat -> (i < n)%nat -> nth i (linspace a b n) 0 = a + INR i * ((b - a) / INR (n - 1)).
Proof.
  intros Hn Hi. unfold linspace. destruct (Nat.eqb_spec n 1); [lia|].
  rewrite (nth_indep _ 0 (a + INR 0 * ((b - a) / INR (n - 1)))) by (rewrite map_length, seq_length; exact Hi).
  rewrite (map_nth (fun i => a + INR i * ((b - a) / INR (n - 1)))), seq_nth by exact Hi. reflexivity.
Qed.
Lemma fold_min_le l x : (forall y, In y (x :: l) -> fold_left Rmin l x <= y) /\ In (fold_left Rmin l x) (x :: l).
Proof.
  revert x. induction l as [|z l IH]; intros x; [split; [intros y [<-|[]]; cbn; lra|left; reflexivity]|]. cbn [fold_left].
  destruct (IH (Rmin x z)) as [H1 H2]. split.
  - intros y Hy. assert (Hm : fold_left Rmin l (Rmin x z) <= Rmin x z) by (apply H1; left; reflexivity). pose proof (Rmin_l x z). pose proof (Rmin_r x z).
    destruct Hy as [<-|[<-|Hy]]; [lra|lra|]. apply H1. right. exact Hy.
  - destruct H2 as [E|E]; [|right; right; exact E]. rewrite <- E. unfold Rmin. destruct (Rle_dec x z); [left|right; left]; reflexivity.
Qed.
Lemma fold_max_ge l x y : In y (x :: l) -> y <= fold_left Rmax l x.
Proof.
  revert x y. induction l as [|z l IH]; intros x y Hy; [destruct Hy as [<-|[]]; cbn; lra|]. cbn [fold_left].
  assert (Hm : Rmax x z <= fold_left Rmax l (Rmax x z)) by (apply IH; left; reflexivity). pose proof (Rmax_l x z). pose proof (Rmax_r x z).
  destruct Hy as [<-|[<-|Hy]]; [lra|lra|]. apply IH. right. exact Hy.
Qed.
(** The candidate means of a normal column run from its least value to beyond its
    greatest. *)
Theorem C58_normal_covers : forall X n, X <> [] -> (2 <= n)%nat -> exists m gs, normal_grids X n = Ok (map Fin m :: gs) /\ length m = n /\
  In (nth 0 m 0) X /\ (forall x, In x X -> nth 0 m 0 <= x /\ x + 5 <= nth (n - 1) m 0) /\ exists x, In x X /\ nth (n - 1) m 0 = x + 5.
Proof.
  intros X n HX Hn. destruct X as [|x0 X']; [congruence|]. destruct (fold_min_le X' x0) as [Hmin Hin]. pose proof (fold_max_ge X' x0) as Hmax. pose proof (max_in X' x0) as Hmi.
  pose proof (var_nonneg (x0 :: X')) as HV. pose proof (count_pos (x0 :: X') HX) as HN.
  assert (Hi : 0 < 1 / (INR (length (x0 :: X')) + 1)) by (apply Rdiv_lt_0_compat; lra).
  unfold normal_grids, both. cbn [pmin pmax rbind]. rewrite !log_linspace_ok by lra. cbn [rbind].
  set (m := linspace (fold_left Rmin X' x0) (fold_left Rmax X' x0 + 5) n). exists m. eexists. split; [reflexivity|]. split; [apply linspace_length|].
  assert (Hp : 0 < INR (n - 1)) by (apply lt_0_INR; lia).
  assert (E0 : nth 0 m 0 = fold_left Rmin X' x0) by (unfold m; rewrite linspace_nth by lia; cbn [INR]; lra).
  assert (E1 : nth (n - 1) m 0 = fold_left Rmax X' x0 + 5) by (unfold m; rewrite linspace_nth by lia; field; lra).
  rewrite E0, E1. split; [exact Hin|]. split; [intros x Hx; split; [apply Hmin; exact Hx|pose proof (Hmax x Hx); lra]|].
  eexists. split; [exact Hmi|reflexivity].
Qed.
Print Assumptions C58_normal_covers.

(** The shapes of a poisson column are integers, each once and in ascending order, from 1
    to the number of values. *)
Inductive ascending : list R -> Prop :=
| asc_nil : ascending []
| asc_cons x l : ascending l -> (forall y, In y l -> x < y) -> ascending (x :: l).
Lemma uinsert_asc x l : ascending l -> ascending (uinsert x l).
Proof.
  induction 1 as [|y l Hl IH Hy]; cbn [uinsert]; [constructor; [constructor|intros y []]|].
  destruct (Rltb x y) eqn:E1.
  - apply Rltb_true in E1. constructor; [constructor; assumption|]. intros z [<-|Hz]; [exact E1|]. pose proof (Hy z Hz). lra.
  - apply Rltb_false in E1. destruct (Reqb x y) eqn:E2; [constructor; assumption|]. apply Reqb_false in E2.
    constructor; [exact IH|]. intros z Hz. apply uinsert_in in Hz. destruct Hz as [->|Hz]; [lra|]. apply Hy. exact Hz.
Qed.
Lemma unique_asc l : ascending (np_unique l).
Proof. unfold np_unique. induction l as [|x l IH]; [constructor|]. cbn [fold_right]. apply uinsert_asc. exact IH. Qed.
Lemma round_int r : exists z, np_round r = IZR z /\ Rabs (r - IZR z) <= 1 / 2.
Proof.
  destruct (base_Int_part r) as [H1 H2]. unfold np_round. destruct (Rltb (r - IZR (Int_part r)) (1 / 2)) eqn:E1.
  - apply Rltb_true in E1. eexists. split; [reflexivity|]. apply Rabs_le. lra.
  - apply Rltb_false in E1. destruct (Rltb (1 / 2) (r - IZR (Int_part r))) eqn:E2.
    + apply Rltb_true in E2. eexists. split; [reflexivity|]. rewrite plus_IZR. apply Rabs_le. lra.
    + apply Rltb_false in E2. destruct (Z.even _); eexists; (split; [reflexivity|]); rewrite ?plus_IZR; apply Rabs_le; lra.
Qed.
Lemma round_of_int z : np_round (IZR z) = IZR z.
Proof.
  destruct (round_int (IZR z)) as [y [-> H]]. f_equal. rewrite <- minus_IZR, <- abs_IZR in H.
  assert (Z.abs (z - y) < 1)%Z by (apply lt_IZR; lra). lia.
Qed.
Theorem C58_poisson_shapes : forall X n, X <> [] -> (2 <= n)%nat -> exists a gs, pois_grids X n = Ok (map Fin a :: gs) /\ ascending a /\
  (forall x, In x a -> exists z, x = IZR z /\ (1 <= z <= Z.of_nat (length X))%Z) /\ In 1 a /\ In (INR (length X)) a.
Proof.
  intros X n HX Hn. pose proof (count_pos X HX) as HN. unfold pois_grids. rewrite log_linspace_ok by lra. cbn [rbind].
  eexists. eexists. split; [reflexivity|]. split; [apply unique_asc|].
  assert (Hp : 0 < INR (n - 1)) by (apply lt_0_INR; lia).
  assert (HI : forall i, (i < n)%nat -> In (nth i (linspace 1 (INR (length X)) n) 0) (linspace 1 (INR (length X)) n)).
  { intros i Hi. apply nth_In. rewrite linspace_length. exact Hi. }
  split.
  - intros x Hx. apply unique_in, in_map_iff in Hx. destruct Hx as [y [<- Hy]]. apply linspace_between in Hy. rewrite Rmin_left, Rmax_right in Hy by exact HN.
    destruct (round_int y) as [z [-> Hz]]. exists z. split; [reflexivity|]. assert (Hz' : - (1 / 2) <= y - IZR z <= 1 / 2) by (unfold Rabs in Hz; destruct (Rcase_abs (y - IZR z)); lra). rewrite INR_IZR_INZ in Hy. split.
    + apply Z.lt_pred_le. apply lt_IZR. rewrite <- Z.sub_1_r, minus_IZR. lra.
    + apply Z.lt_succ_r. apply lt_IZR. rewrite succ_IZR. lra.
  - split.
    + apply unique_in, in_map_iff. exists 1. split; [exact (round_of_int 1)|]. pose proof (HI 0%nat ltac:(lia)) as H. rewrite linspace_nth in H by lia.
      cbn [INR] in H. rewrite Rmult_0_l, Rplus_0_r in H. exact H.
    + apply unique_in, in_map_iff. exists (INR (length X)). split; [rewrite INR_IZR_INZ; apply round_of_int|].
      pose proof (HI (n - 1)%nat ltac:(lia)) as H. rewrite linspace_nth in H by lia. replace (1 + INR (n - 1) * ((INR (length X) - 1) / INR (n - 1))) with (INR (length X)) in H by (field; lra). exact H.
Qed.
Print Assumptions C58_poisson_shapes.

(** *** The concentration of a partition *)

Lemma alpha_scores_total lgam : forall g c, (forall a, In a g -> 0 < a) ->
  exists c1 ws, alpha_scores lgam c g = (c1, Ok (map Fin ws)) /\ length ws = length g.
Proof.
  induction g as [|a g IH]; intros c H; [exists c, []; split; reflexivity|]. cbn [alpha_scores]. unfold crp_set_hypers.
  rewrite (proj2 (Rltb_true 0 a) (H a (or_introl eq_refl))). cbn [rbind]. unfold crp_score, crp_marginal. cbn [c_alpha].
  rewrite plog_pos by (apply H; left; reflexivity). cbn [rbind].
  destruct (IH (Crp (c_N c) (c_data c) (c_counts c) a) (fun b Hb => H b (or_intror Hb))) as [c1 [ws [E L]]]. rewrite E.
  exists c1. eexists (_ :: ws). split; [reflexivity|]. cbn. rewrite L. reflexivity.
Qed.
Lemma alpha_total lgam draw g c : draw_ok draw -> g <> [] -> (forall a, In a g -> 0 < a) ->
  exists c', crp_transition_alpha lgam draw g c = (c', Ok tt) /\ In (c_alpha c') g.
Proof.
  intros Hd Hg Hp. assert (E : exists c', crp_transition_alpha lgam draw g c = (c', Ok tt)).
  { unfold crp_transition_alpha. destruct (alpha_scores_total lgam g c Hp) as [c1 [ws [E L]]]. rewrite E. cbn [rbind].
    destruct (log_pflip_spec draw (map Fin ws) g Hd) as [j [v [y [Ev [Hj _]]]]].
    { apply Forall_map, Forall_forall. intros; exact I. }
    { rewrite map_map. destruct ws as [|w ws]; [exfalso; apply Hg; destruct g; [reflexivity|discriminate L]|]. simpl.
      pose proof (exp_pos w). assert (0 <= Rsum (map (fun x => lexp (Fin x)) ws)).
      { clear. induction ws as [|x ws IH]; simpl in *; [lra|]. pose proof (exp_pos x). lra. }
      simpl in *. lra. }
    { rewrite map_length. symmetry; exact L. }
    rewrite Ev. unfold crp_set_hypers. rewrite (proj2 (Rltb_true 0 v)) by (apply Hp; eapply nth_error_In; exact Hj). eexists. reflexivity. }
  destruct E as [c' E]. exists c'. split; [exact E|]. destruct (crp_transition_alpha_same _ _ _ _ _ _ E) as [_ [_ [_ H]]]. apply H. reflexivity.
Qed.
(** The grid made from the number of rows (view.py:99) lets the transition of the
    concentration return whatever the partition is; the new value lies between 1 / rows
    and rows.  Without rows there is no grid. *)
Theorem C58_alpha : forall rows n, (0 < rows)%nat -> (2 <= n)%nat -> exists g, crp_grids (repeat 1 rows) n = Ok [map Fin g] /\
  forall lgam draws v, v_grid v = g -> (forall j, draw_ok (draws j)) ->
    exists v', view_transition_alpha lgam draws v = (v', Ok tt) /\ 1 / INR rows <= c_alpha (v_crp v') <= INR rows /\
      v_dims v' = v_dims v /\ v_out v' = v_out v /\ c_data (v_crp v') = c_data (v_crp v).
Proof.
  intros rows n Hr Hn. assert (HN : 1 <= INR rows) by (apply (le_INR 1); lia).
  assert (Hi : 0 < 1 / INR rows) by (apply Rdiv_lt_0_compat; lra).
  assert (Hle : 1 / INR rows <= INR rows).
  { apply Rmult_le_reg_r with (INR rows); [lra|]. unfold Rdiv. rewrite Rmult_1_l, Rinv_l by lra. nra. }
  destruct (C58_log_linspace (1 / INR rows) (INR rows) n Hi) as [g [E [L [_ [_ [_ Hb]]]]]]; [lra|exact Hn|]. rewrite Rmin_left, Rmax_right in Hb by exact Hle.
  exists g. split.
  { unfold crp_grids. rewrite repeat_length. destruct (Nat.eqb_spec rows 0); [lia|]. rewrite E. reflexivity. }
  intros lgam draws v Hv Hd. assert (Hg : g <> []) by (intros ->; cbn in L; lia).
  assert (Hp : forall a, In a g -> 0 < a) by (intros a Ha; pose proof (Hb a Ha); lra).
  unfold view_transition_alpha. rewrite Hv. destruct (alpha_total lgam (draws 0%nat) g (v_crp v) (Hd _) Hg Hp) as [c1 [E1 _]]. rewrite E1.
  destruct (alpha_total lgam (draws 1%nat) g c1 (Hd _) Hg Hp) as [c2 [E2 I2]]. rewrite E2. eexists. split; [reflexivity|].
  split; [exact (Hb _ I2)|]. split; [reflexivity|]. split; [reflexivity|].
  destruct (crp_transition_alpha_same _ _ _ _ _ _ E1) as [A _]. destruct (crp_transition_alpha_same _ _ _ _ _ _ E2) as [B _]. cbn. congruence.
Qed.
Print Assumptions C58_alpha.
Theorem C58_no_rows_refuted : exists rows, forall n gs, crp_grids (repeat 1 rows) n <> Ok gs.
Proof. exists 0%nat. intros n gs. discriminate. Qed.
Print Assumptions C58_no_rows_refuted.

(** *** Linear regression *)

Theorem C58_linreg : forall X n, X <> [] -> (0 < n)%nat -> exists a b, linreg_grids X n = Ok [map Fin a; map Fin b] /\
  length a = n /\ length b = n /\ (forall x, In x a -> 0 < x) /\ (forall x, In x b -> 0 < x).
Proof.
  intros X n HX Hn. pose proof (var_nonneg X) as HV. pose proof (count_pos X HX) as HN. unfold linreg_grids.
  assert (Hi : 0 < 1 / (10 * (INR (length X) + 1))) by (apply Rdiv_lt_0_compat; lra).
  rewrite !log_linspace_ok by lra. cbn [rbind].
  destruct (Nat.eqb_spec (length X) 0) as [E|_]; [destruct X; [congruence|discriminate E]|]. cbn [rbind]. eexists. eexists. split; [reflexivity|].
  rewrite !map_length, !linspace_length. split; [reflexivity|]. split; [reflexivity|].
  split; intros x Hx; apply in_map_iff in Hx; destruct Hx as [y [<- _]]; apply exp_pos.
Qed.
Print Assumptions C58_linreg.
(** Without data (linreg.py:158 after every row was removed) the candidates of [b] are not
    numbers, and no error is raised. *)
Theorem C58_linreg_refuted : exists X, forall n, (0 < n)%nat -> exists a b, linreg_grids X n = Ok [a; b] /\ b <> [] /\ forall x, In x b -> x = NaN.
Proof.
  exists []. intros n Hn. unfold linreg_grids. cbn [length INR]. assert (Hi : 0 < 1 / (10 * (0 + 1))) by (apply Rdiv_lt_0_compat; lra).
  rewrite log_linspace_ok by lra. cbn. eexists. eexists. split; [reflexivity|]. split; [destruct n; [lia|discriminate]|]. intros x Hx. apply repeat_spec in Hx. exact Hx.
Qed.
Print Assumptions C58_linreg_refuted.

(** The ends of the grids.  [N] is the number of values, [S] the sum of their squared
    deviations from the mean. *)
Definition spans (n : nat) (g : list R) (lo hi : R) : Prop :=
  length g = n /\ nth 0 g 0 = lo /\ nth (n - 1) g 0 = hi /\ exists q, 0 < q /\ forall i, (S i < n)%nat -> nth (S i) g 0 = nth i g 0 * q.
Definition steps (n : nat) (g : list R) (lo hi : R) : Prop :=
  length g = n /\ nth 0 g 0 = lo /\ nth (n - 1) g 0 = hi /\ exists q, forall i, (S i < n)%nat -> nth (S i) g 0 = nth i g 0 + q.
Definition deviations (X : list R) : R := Rsum (map (fun x => (x - Rsum X / INR (length X)) ^ 2) X).
Definition greatest (x : R) (X : list R) : Prop := In x X /\ forall y, In y X -> y <= x.
Definition least (x : R) (X : list R) : Prop := In x X /\ forall y, In y X -> x <= y.

Lemma log_spans a b n : 0 < a -> 0 < b -> (2 <= n)%nat -> exists g, log_linspace a b n = Ok g /\ spans n g a b.
Proof. intros Ha Hb Hn. destruct (C58_log_linspace a b n Ha Hb Hn) as [l [E [L [E0 [E1 [Q _]]]]]]. exists l. unfold spans. auto. Qed.
Lemma lin_steps a b n : (2 <= n)%nat -> steps n (linspace a b n) a b.
Proof.
  intros Hn. assert (Hp : 0 < INR (n - 1)) by (apply lt_0_INR; lia). split; [apply linspace_length|].
  split; [rewrite linspace_nth by lia; cbn [INR]; lra|]. split; [rewrite linspace_nth by lia; field; lra|].
  exists ((b - a) / INR (n - 1)). intros i Hi. rewrite !linspace_nth by lia. rewrite S_INR. ring.
Qed.
Lemma var_deviations X : X <> [] -> np_var X * INR (length X) = deviations X.
Proof.
  intros HX. pose proof (count_pos X HX) as HN. unfold np_var, deviations. set (m := Rsum X / INR (length X)).
  replace (map (fun x => (x - m) ^ 2) X) with (map (fun x => (x - m) * (x - m)) X) by (apply map_ext; intros x; ring). field. lra.
Qed.
Theorem C58_ends : forall X n, X <> [] -> (2 <= n)%nat -> let N := INR (length X) in
  (exists a b, bern_grids X n = Ok [map Fin a; map Fin b] /\ spans n a 1 N /\ spans n b 1 N) /\
  (exists a, cat_grids X n = Ok [map Fin a] /\ spans n a 1 N) /\
  (exists a, crp_grids X n = Ok [map Fin a] /\ spans n a (1 / N) N) /\
  (exists a b, expo_grids X n = Ok [map Fin a; map Fin b] /\ spans n a (1 / 2) N /\ spans n b (1 / 2) N) /\
  (exists a b, geom_grids X n = Ok [map Fin a; map Fin b] /\ spans n a 1 (N / 2) /\ spans n b (1 / 10) (N / 2)) /\
  (exists a b, pois_grids X n = Ok [map Fin a; map Fin b] /\ spans n b (1 / 10) N) /\
  (exists m r s nu lo hi, normal_grids X n = Ok [map Fin m; map Fin r; map Fin s; map Fin nu] /\ least lo X /\ greatest hi X /\
     steps n m lo (hi + 5) /\ spans n r (1 / (N + 1)) (N + 1) /\ spans n s ((deviations X + 1) / 100) (deviations X + 1) /\ spans n nu 1 (N + 1)) /\
  ((forall x, In x X -> 0 < x) -> exists m r s nu hi, lognormal_grids X n = Ok [map Fin m; map Fin r; map Fin s; map Fin nu] /\ greatest hi X /\
     spans n m (1 / 10000) hi /\ spans n r (1 / 10) N /\ spans n s (1 / 10) N /\ spans n nu (1 / 10) N) /\
  (forall i0 i1 k, estimate_kappa i0 i1 (length X) (Rsum (map sin X)) (Rsum (map cos X)) = Fin k -> exists a b c,
     vm_grids i0 i1 X n = Ok [map Fin a; map Fin b; map Fin c] /\ spans n a (1 / N) N /\ steps n b (2 * PI / INR n) (2 * PI) /\ steps n c k (N * k)) /\
  (exists a b, linreg_grids X n = Ok [map Fin a; map Fin b] /\ spans n a (1 / (10 * (N + 1))) (10 * (N + 1)) /\
     spans n b ((deviations X + 1) / 100) (deviations X + 1)).
Proof.
  intros X n HX Hn N. pose proof (count_pos X HX) as HN. fold N in HN. pose proof (var_nonneg X) as HV. rewrite (var_deviations X HX) in HV.
  assert (H1 : 0 < 1 / N) by (apply Rdiv_lt_0_compat; lra). assert (H2 : 0 < 1 / (N + 1)) by (apply Rdiv_lt_0_compat; lra).
  assert (H3 : 0 < 1 / (10 * (N + 1))) by (apply Rdiv_lt_0_compat; lra).
  assert (Hmin : exists lo, pmin X = Ok lo /\ least lo X).
  { destruct X as [|x0 X']; [congruence|]. eexists. split; [reflexivity|]. destruct (fold_min_le X' x0) as [A B]. split; assumption. }
  assert (Hmax : exists hi, pmax X = Ok hi /\ greatest hi X).
  { destruct X as [|x0 X']; [congruence|]. eexists. split; [reflexivity|]. split; [apply max_in|]. intros y. apply fold_max_ge. }
  destruct Hmin as [lo [Elo Hlo]]. destruct Hmax as [hi [Ehi Hhi]].
  assert (Hne : (length X =? 0)%nat = false) by (destruct X; [congruence|reflexivity]).
  destruct (log_spans 1 N n) as [g1 [E1 S1]]; [lra|lra|exact Hn|].
  destruct (log_spans (1 / N) N n) as [g2 [E2 S2]]; [lra|lra|exact Hn|].
  destruct (log_spans (1 / 2) N n) as [g3 [E3 S3]]; [lra|lra|exact Hn|].
  destruct (log_spans 1 (N / 2) n) as [g4 [E4 S4]]; [lra|lra|exact Hn|].
  destruct (log_spans (1 / 10) (N / 2) n) as [g5 [E5 S5]]; [lra|lra|exact Hn|].
  destruct (log_spans (1 / 10) N n) as [g6 [E6 S6]]; [lra|lra|exact Hn|].
  destruct (log_spans (1 / (N + 1)) (N + 1) n) as [g7 [E7 S7]]; [lra|lra|exact Hn|].
  destruct (log_spans ((deviations X + 1) / 100) (deviations X + 1) n) as [g8 [E8 S8]]; [lra|lra|exact Hn|].
  destruct (log_spans 1 (N + 1) n) as [g9 [E9 S9]]; [lra|lra|exact Hn|].
  destruct (log_spans (1 / (10 * (N + 1))) (10 * (N + 1)) n) as [g10 [E10 S10]]; [lra|lra|exact Hn|].
  split; [exists g1, g1; unfold bern_grids, both; fold N; rewrite E1; auto|].
  split; [exists g1; unfold cat_grids; fold N; rewrite E1; auto|].
  split; [exists g2; unfold crp_grids; fold N; rewrite Hne, E2; auto|].
  split; [exists g3, g3; unfold expo_grids, both; fold N; rewrite E3; auto|].
  split; [exists g4, g5; unfold geom_grids, both; fold N; rewrite E4, E5; auto|].
  split; [eexists; exists g6; unfold pois_grids; fold N; rewrite E6; split; [reflexivity|exact S6]|].
  split.
  { exists (linspace lo (hi + 5) n), g7, g8, g9, lo, hi. unfold normal_grids, both. rewrite (var_deviations X HX), Elo, Ehi. fold N. cbn [rbind]. rewrite E7, E8, E9.
    split; [reflexivity|]. split; [exact Hlo|]. split; [exact Hhi|]. split; [apply lin_steps; exact Hn|]. auto. }
  split.
  { intros Hp. assert (Hh : 0 < hi) by (apply Hp, Hhi). destruct (log_spans (1 / 10000) hi n) as [g11 [E11 S11]]; [lra|exact Hh|exact Hn|].
    exists g11, g6, g6, g6, hi. unfold lognormal_grids. rewrite Ehi. fold N. cbn [rbind]. rewrite E11. cbn [rbind]. rewrite E6. split; [reflexivity|]. auto. }
  split.
  { intros i0 i1 k Ek. exists g2, (linspace (2 * PI / INR n) (2 * PI) n), (linspace k (N * k) n). unfold vm_grids. rewrite Hne, Ek. fold N. rewrite E2.
    split; [reflexivity|]. split; [exact S2|]. split; apply lin_steps; exact Hn. }
  exists g10, g8. unfold linreg_grids. rewrite (var_deviations X HX). fold N. rewrite E10. cbn [rbind]. rewrite Hne, E8. auto.
Qed.
Print Assumptions C58_ends.

(* ------------------------------------------------------------------ *)
(** ** Examples *)

Lemma normal_not_vm i0 i1 : normal_grids <> vm_grids i0 i1.
Proof. intros E. pose proof (f_equal (fun f => f [] 1%nat) E) as E1. discriminate E1. Qed.
Example C58_log_linspace_ex : exists l, log_linspace 1 4 3 = Ok l /\ nth 0 l 0 = 1 /\ nth 1 l 0 = 2 /\ nth 2 l 0 = 4.
Proof.
  destruct (C58_log_linspace 1 4 3) as [l [E [L [E0 [E2 [[q [Hq R]] _]]]]]]; [lra|lra|lia|].
  exists l. split; [exact E|]. split; [exact E0|]. cbn [Nat.sub] in E2. pose proof (R 0%nat ltac:(lia)) as R0. pose proof (R 1%nat ltac:(lia)) as R1.
  split; [|exact E2]. rewrite E2, R0, E0 in R1. rewrite R0, E0. nra.
Qed.
(** A normal column; the values are those that are present. *)
Example C58_valid_ex : forall lgam, exists gs, normal_grids (present [Some 3; None; Some 1]) 30 = Ok (map (map Fin) gs) /\ length gs = 4%nat /\
  forall vs h s, Forall2 (@In R) vs gs -> exists s', m_set_hypers (M_normal lgam) s (assign (M_normal lgam) 0 vs h) = (s', Ok tt).
Proof.
  intros lgam. destruct (C58_valid (M_normal lgam) normal_grids [3; 1] 30) as [gs [E [L [_ H]]]].
  - constructor.
  - discriminate.
  - intros x _. exists (m_new (M_normal lgam) (NHyp 0 1 1 1) tt), 0%Z. eexists. reflexivity.
  - lia.
  - intros i0 i1 E. destruct (normal_not_vm i0 i1 E).
  - exists gs. auto.
Qed.
Example C58_transition_ex : exists d tr gs d1 d2,
  dim_run (M_normal lgam_w) (dim_new (M_normal lgam_w) (NHyp 0 1 1 1) false [] (fun _ => tt))
    [DInc 0 (Some 0%Z) (Some 3) []; DInc 1 (Some 1%Z) (Some 1) []] = (d, tr) /\ map snd tr = [Ok tt; Ok tt] /\
  normal_grids [3; 1] 30 = Ok (map (map Fin) gs) /\
  dim_transition_grids (M_normal lgam_w) d gs (fun _ => 0%nat) = (d1, Ok tt) /\
  dim_transition_hypers (M_normal lgam_w) (fun _ => first_pos) [3; 0; 1; 2]%nat d1 = (d2, Ok tt) /\
  0 < n_r (d_hyp d2) /\ 0 < n_s (d_hyp d2) /\ 0 < n_nu (d_hyp d2).
Proof.
  destruct (dim_run (M_normal lgam_w) (dim_new (M_normal lgam_w) (NHyp 0 1 1 1) false [] (fun _ => tt))
    [DInc 0 (Some 0%Z) (Some 3) []; DInc 1 (Some 1%Z) (Some 1) []]) as [d tr] eqn:E.
  assert (T : map snd tr = [Ok tt; Ok tt] /\ d_set d = false).
  { replace d with (fst (d, tr)) by reflexivity. replace tr with (snd (d, tr)) at 1 by reflexivity. rewrite <- E. split; vm_compute; reflexivity. }
  destruct T as [T Hs]. exists d, tr.
  assert (HR : exists gs d1 d2, normal_grids [3; 1] 30 = Ok (map (map Fin) gs) /\
    dim_transition_grids (M_normal lgam_w) d gs (fun _ => 0%nat) = (d1, Ok tt) /\
    dim_transition_hypers (M_normal lgam_w) (fun _ => first_pos) [3; 0; 1; 2]%nat d1 = (d2, Ok tt) /\
    (fun h => 0 < n_r h /\ 0 < n_s h /\ 0 < n_nu h) (d_hyp d2)).
  { refine (C58_transition (M_normal lgam_w) normal_grids (fun h => 0 < n_r h /\ 0 < n_s h /\ 0 < n_nu h) [3; 1] 30 _ _ _ _ _ d tr (fun _ _ => 0%nat) (fun _ => first_pos) [3; 0; 1; 2]%nat (kn_normal _) _ _ _ E _ _ _ _ _ _ _ _).
  - intros lbes H. assert (m_nhyp (M_normal lgam_w) = m_nhyp (M_vonmises lbes)) by (rewrite H; reflexivity). discriminate.
  - apply l_normal.
  - intros h [H1 [H2 H3]]. constructor; assumption.
  - rewrite Hs. discriminate.
  - discriminate.
  - intros x _. exists (m_new (M_normal lgam_w) (NHyp 0 1 1 1) tt), 0%Z. eexists. reflexivity.
  - lia.
  - intros i0 i1 X. destruct (normal_not_vm i0 i1 X).
  - intros i k Hk. exact Hk.
  - intros j. apply C16_draw_ex.
  - intros i [<-|[<-|[<-|[<-|[]]]]]; cbn; lia.
  }
  destruct HR as [gs [d1 [d2 [A [B [C D]]]]]]. exists gs, d1, d2. split; [reflexivity|]. split; [exact T|]. split; [exact A|]. split; [exact B|]. split; [exact C|]. exact D.
Qed.
Example C58_empty_ex : exists e, bern_grids (present [None; None]) 30 = Err e.
Proof. exact (C58_empty (M_bernoulli lgam_w) bern_grids 30 (g_bernoulli lgam_w) eq_refl). Qed.
(** Functions with the values of the Bessel functions at the two ends. *)
Definition i0_w (x : ext) : ext := match x with PInf => PInf | Fin _ => Fin 1 | _ => NaN end.
Definition i1_w (x : ext) : ext := match x with PInf => PInf | Fin r => Fin r | _ => NaN end.
Example C58_kappa_ex : bessel_ends i0_w i1_w /\ forall lbes, exists gs,
  vm_grids i0_w i1_w [2; 2; 2] 30 = Ok (map (map Fin) gs) /\ length gs = m_nhyp (M_vonmises lbes).
Proof.
  split; [repeat split|]. intros lbes.
  destruct (C58_valid (M_vonmises lbes) (vm_grids i0_w i1_w) [2; 2; 2] 30) as [gs [E [L _]]].
  - constructor.
  - discriminate.
  - assert (Hb : vm_inb 2 = true).
    { unfold vm_inb. rewrite (proj2 (Rleb_true 0 2)), (proj2 (Rleb_true 2 (2 * PI))) by (pose proof PI2_1; lra). reflexivity. }
    intros x [<-|[<-|[<-|[]]]]; exists (m_new (M_vonmises lbes) (VHyp 1 1 1) tt), 0%Z; eexists; cbn; unfold prim_incorporate; cbn; rewrite Hb; reflexivity.
  - lia.
  - apply estimated_vm. destruct (C58_kappa i0_w i1_w [2; 2; 2]) as [_ H]; [repeat split|]. apply H. right. left. exists 2, 3%nat. reflexivity.
  - exists gs. auto.
Qed.

Example C58_ends_ex : exists m gs, normal_grids [3; 1] 5 = Ok (map Fin m :: gs) /\ nth 0 m 0 = 1 /\ nth 4 m 0 = 8 /\ deviations [3; 1] = 2.
Proof.
  destruct (C58_ends [3; 1] 5) as [_ [_ [_ [_ [_ [_ [H _]]]]]]]; [discriminate|lia|].
  destruct H as [m [r [s [nu [lo [hi [E [[L1 L2] [[G1 G2] [[_ [S1 [S2 _]]] _]]]]]]]]]]. exists m. eexists. split; [exact E|].
  pose proof (L2 3 (or_introl eq_refl)). pose proof (L2 1 (or_intror (or_introl eq_refl))). pose proof (G2 3 (or_introl eq_refl)). pose proof (G2 1 (or_intror (or_introl eq_refl))).
  cbn [Nat.sub] in S2. rewrite S1, S2. destruct L1 as [<-|[<-|[]]]; destruct G1 as [<-|[<-|[]]]; try lra.
  split; [reflexivity|]. split; [lra|]. unfold deviations. cbn [map length INR]. change (Rsum [3; 1]) with (3 + (1 + 0)). cbn. lra.
Qed.

(** Two functions with those derivatives at 1. *)
Example C58_newton_ex : exists i0 i1 b0 b1, i0 (Fin 1) = Fin (b0 1) /\ i1 (Fin 1) = Fin (b1 1) /\ b0 1 <> 0 /\
  derivable_pt_lim b0 1 (b1 1) /\ derivable_pt_lim b1 1 (b0 1 - b1 1 / 1) /\ kappa_step i0 i1 (1 / 4) (Fin 1) = Fin 0.
Proof.
  set (b := fun x : R => 1 + (x - 1) / 2). set (c := fun x : R => x / 2).
  assert (Db : derivable_pt_lim b 1 (c 1)).
  { unfold b, c. replace (1 / 2) with (0 + (1 - 0) * / 2) by field.
    apply (derivable_pt_lim_plus (fun _ => 1) (fun x => (x - 1) / 2)); [apply derivable_pt_lim_const|].
    replace ((1 - 0) * / 2) with ((1 - 0) * / 2 + (1 - 1) * 0) by ring.
    apply (derivable_pt_lim_mult (fun x => x - 1) (fun _ => / 2)); [|apply derivable_pt_lim_const].
    apply (derivable_pt_lim_minus (fun x => x) (fun _ => 1)); [apply derivable_pt_lim_id|apply derivable_pt_lim_const]. }
  assert (Dc : derivable_pt_lim c 1 (b 1 - c 1 / 1)).
  { unfold b, c. replace (1 + (1 - 1) / 2 - 1 / 2 / 1) with (1 * / 2 + 1 * 0) by field.
    apply (derivable_pt_lim_mult (fun x => x) (fun _ => / 2)); [apply derivable_pt_lim_id|apply derivable_pt_lim_const]. }
  set (lift := fun (f : R -> R) (x : ext) => match x with Fin r => Fin (f r) | y => y end).
  exists (lift b), (lift c), b, c. split; [reflexivity|]. split; [reflexivity|]. split; [unfold b; lra|]. split; [exact Db|]. split; [exact Dc|].
  destruct (C58_newton (lift b) (lift c) b c (1 / 4) 1 eq_refl eq_refl) as [slope [Ds Hs]]; [lra|unfold b; lra|exact Db|exact Dc|].
  assert (Hsl : slope = 1 / 4).
  { assert (D : derivable_pt_lim (c / b)%F 1 (((b 1 - c 1 / 1) * b 1 - c 1 * c 1) / Rsqr (b 1))) by (apply derivable_pt_lim_div; [exact Dc|exact Db|unfold b; lra]).
    rewrite (uniqueness_limite _ _ _ _ Ds D). unfold b, c, Rsqr. field. }
  rewrite Hs by lra. rewrite Hsl. f_equal. unfold div_fct, b, c. field.
Qed.
