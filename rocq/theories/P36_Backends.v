(** C60: handing a state to the external samplers, and taking their answer. *)
From Verif Require Import LogSpaceFacts P02_LogSpace P06_Dim P07_View P09_State RelevanceState ProgressEdits.
From Verif Require Import Schedule P16_Schedule.
From Verif Require Import Grids P34_Grids P35_Progress.
From Verif Require Import BackendsLoom.
From Coq Require Import Lia Permutation.
Local Open Scope R_scope.

(* ------------------------------------------------------------------ *)
(** ** What lovecat is given *)

(** lovecat gets a table of [n] rows, one entry per column: a number as it is, a missing
    value as it is, a category as its position among the observed categories, and a
    dictionary that tells how to go back. *)
Theorem C60_table n s cats types : sinv n s -> length types = length (s_outs s) ->
  (forall i c t, nth_error (s_outs s) i = Some c -> nth_error types i = Some t -> t <> TOther /\
     forall k, t = TCategorical k -> categories n s c k (cats c)) ->
  exists M_c T, crosscat_M_c cats types s = Ok M_c /\ crosscat_T s M_c = Ok T /\
    length M_c = length (s_outs s) /\ length T = n /\
    (forall r row, nth_error T r = Some row -> length row = length (s_outs s)) /\
    (forall r i c t x, nth_error (s_outs s) i = Some c -> nth_error types i = Some t ->
       tab (s_X s) c (Z.of_nat r) = Ok x -> (r < n)%nat ->
       exists row y m, nth_error T r = Some row /\ nth_error row i = Some y /\ nth_error M_c i = Some m /\ encodes t (cats c) m x y).
Proof.
  intros H L Ht. destruct (table_ok n s cats types H L Ht) as [M_c [T [E1 [E2 [L1 [L2 [_ [L3 F]]]]]]]].
  exists M_c, T. auto 10.
Qed.
Print Assumptions C60_table.

(** Two cells of a column of categories get the same code just when they are equal; the
    codes are below the number of observed categories. *)
Theorem C60_codes n s cats types k i c : sinv n s -> length types = length (s_outs s) ->
  (forall i c t, nth_error (s_outs s) i = Some c -> nth_error types i = Some t -> t <> TOther /\
     forall k, t = TCategorical k -> categories n s c k (cats c)) ->
  nth_error (s_outs s) i = Some c -> nth_error types i = Some (TCategorical k) ->
  exists M_c T, crosscat_M_c cats types s = Ok M_c /\ crosscat_T s M_c = Ok T /\
    forall r r' v v', (r < n)%nat -> (r' < n)%nat ->
      tab (s_X s) c (Z.of_nat r) = Ok (Some v) -> tab (s_X s) c (Z.of_nat r') = Ok (Some v') ->
      exists row row' j j', nth_error T r = Some row /\ nth_error T r' = Some row' /\
        nth_error row i = Some (Some (INR j)) /\ nth_error row' i = Some (Some (INR j')) /\
        (j < length (cats c))%nat /\ (j = j' <-> v = v').
Proof.
  intros H L Ht Hc Hk. destruct (C60_table n s cats types H L Ht) as [M_c [T [E1 [E2 [_ [_ [_ F]]]]]]].
  destruct (Ht i c _ Hc Hk) as [_ Hcat]. destruct (Hcat k eq_refl) as [Nc _].
  exists M_c, T. split; [exact E1|]. split; [exact E2|]. intros r r' v v' Hr Hr' Ev Ev'.
  destruct (F r i c _ _ Hc Hk Ev Hr) as [row [y [m [Er [Ey [_ [j [Ej [-> _]]]]]]]]].
  destruct (F r' i c _ _ Hc Hk Ev' Hr') as [row' [y' [m' [Er' [Ey' [_ [j' [Ej' [-> _]]]]]]]]].
  exists row, row', j, j'. do 4 (split; [assumption|]). split; [apply nth_error_Some; congruence|].
  split; [intros ->; congruence|]. intros ->. apply (proj1 (NoDup_nth_error (cats c)) Nc); [apply nth_error_Some; congruence|congruence].
Qed.
Print Assumptions C60_codes.

(** The column partition and the row partitions that lovecat gets: the views are numbered
    from 0, two columns have the same number just when they are in the same view, and the
    entry with that number describes that view: its columns, its concentration, and the
    clusters of the rows in the order of the dictionary of the rows. *)
Theorem C60_partitions n s M_c : sinv n s -> (0 < n)%nat -> (forall m, In m M_c -> mt_normal m = true \/ mt_code m <> []) ->
  exists X_D L, crosscat_X_D s = Ok X_D /\ crosscat_X_L s M_c X_D = Ok L /\
    length (xl_assign L) = length (s_outs s) /\
    (exists K, (0 < K)%nat /\ numbered K (xl_assign L) /\ length X_D = K /\ length (xl_views L) = K /\ length (xl_counts L) = K /\
      forall j, (j < K)%nat -> nth_error (xl_counts L) j = Some (Z.of_nat (count_occ Z.eq_dec (xl_assign L) (Z.of_nat j)))) /\
    xl_alpha L = c_alpha (s_crp s) /\
    (forall i c v w, nth_error (s_outs s) i = Some c -> dget c (s_zv s) = Some v -> dget v (s_views s) = Some w ->
      exists j part vs, nth_error (xl_assign L) i = Some (Z.of_nat j) /\ nth_error X_D j = Some part /\
        nth_error (xl_views L) j = Some vs /\ told s v w part vs) /\
    (forall i i' c c', nth_error (s_outs s) i = Some c -> nth_error (s_outs s) i' = Some c' ->
      (nth_error (xl_assign L) i = nth_error (xl_assign L) i' <-> dget c (s_zv s) = dget c' (s_zv s))).
Proof. intros H Hn HM. exact (handed_ok n s H Hn M_c HM). Qed.
Print Assumptions C60_partitions.

(** The dictionary of the rows is in the order of the rows. *)
Definition in_order (n : nat) (w : view) : Prop := dkeys (v_rows w) = range (Z.of_nat n).

Lemma dget_by_pos {A} (d : dict A) n r : dkeys d = range (Z.of_nat n) -> (r < n)%nat ->
  dget (Z.of_nat r) d = nth_error (dvals d) r.
Proof.
  intros Ek Hr. assert (Hn : NoDup (dkeys d)) by (rewrite Ek; apply NoDup_range).
  assert (Hk : nth_error (dkeys d) r = Some (Z.of_nat r)) by (rewrite Ek; apply nth_error_range; lia).
  unfold dkeys in Hk. rewrite nth_error_map in Hk. destruct (nth_error d r) as [[k x]|] eqn:E; [|discriminate].
  cbn in Hk. injection Hk as ->. unfold dvals. rewrite nth_error_map, E. cbn.
  apply dget_nth; [exact Hn|]. exists r. exact E.
Qed.

(** While the dictionary of the rows of a view is in the order of the rows, position [r] of
    the row partition is row [r]: two rows get the same number just when they are in the
    same cluster.  What is missing: states that have moved a row, for which it is false
    (see [C60_roundtrip_refuted]). *)
Theorem C60_rows_partial n s X_D : sinv n s -> crosscat_X_D s = Ok X_D ->
  (forall v w, dget v (s_views s) = Some w -> in_order n w) ->
  exists vs, length vs = length X_D /\ (forall v, In v vs <-> exists c, dget c (s_zv s) = Some v) /\
  forall j v part, nth_error vs j = Some v -> nth_error X_D j = Some part ->
    exists w, dget v (s_views s) = Some w /\ length part = n /\
      forall r r', (r < n)%nat -> (r' < n)%nat ->
        (nth_error part r = nth_error part r' <-> dget (Z.of_nat r) (v_rows w) = dget (Z.of_nat r') (v_rows w)).
Proof.
  intros H E Ho. destruct (X_D_ok n s H) as [X [E' F]]. rewrite E in E'. injection E' as <-.
  exists (uniq (dvals (s_zv s))). split; [eapply Forall2_length'; exact F|]. split; [intros v; apply (in_u n s H)|].
  intros j v part Hv Hp. destruct (Forall2_nth _ _ _ _ _ F Hv) as [part' [Ep [w [Ew Er]]]].
  assert (part' = part) by congruence. subst part'. exists w. split; [exact Ew|].
  destruct (row_codes_ok w) as [m [Em [[Lm Rm] _]]]. assert (m = part) by congruence. subst m.
  pose proof (Ho v w Ew) as Hw. assert (Lv : length (dvals (v_rows w)) = n).
  { rewrite length_dvals. apply (f_equal (@length Z)) in Hw. unfold dkeys in Hw. rewrite map_length, length_range in Hw. lia. }
  split; [congruence|]. intros r r' Hr Hr'. rewrite !(dget_by_pos _ n) by assumption. apply Rm; lia.
Qed.
Print Assumptions C60_rows_partial.

(* ------------------------------------------------------------------ *)
(** ** Taking an answer of lovecat *)

(** An answer about a state of [n] rows: row partitions of [n] rows, one concentration for
    each, a partition for every column. *)
Definition answer_ok (n : nat) (s : state) (a : Backends.answer) : Prop :=
  (forall p, In p (an_parts a) -> length p = n) /\ length (an_alphas a) = length (an_parts a) /\
  length (an_assign a) = length (s_outs s) /\ 0 < an_alpha a /\
  (forall k, In k (an_assign a) -> (0 <= k < Z.of_nat (length (an_parts a)))%Z).
(** Every partition has a column. *)
Definition answer_onto (a : Backends.answer) : Prop :=
  forall i, (i < length (an_parts a))%nat -> In (Z.of_nat i) (an_assign a).

(** [s'] is [s] with the partitions of the answer. *)
Record adopted (n : nat) (s : state) (a : Backends.answer) (s' : state) : Prop := {
  ad_data : same_data s s';
  ad_alpha : c_alpha (s_crp s') = an_alpha a;
  ad_grid : s_grid s' = s_grid s;
  ad_count : length (s_views s') = length (an_parts a);
  ad_numbers : exists offset, (forall v, In v (dkeys (s_views s)) -> (v < offset)%Z) /\
    (forall v, In v (dkeys (s_views s')) <-> exists j, (j < length (an_parts a))%nat /\ v = (offset + Z.of_nat j)%Z) /\
    (forall i c k, nth_error (s_outs s) i = Some c -> nth_error (an_assign a) i = Some k -> dget c (s_zv s') = Some (offset + k)%Z);
  ad_cols : forall i i' c c', nth_error (s_outs s) i = Some c -> nth_error (s_outs s) i' = Some c' ->
    (dget c (s_zv s') = dget c' (s_zv s') <-> nth_error (an_assign a) i = nth_error (an_assign a) i');
  ad_view : forall i c k part alpha, nth_error (s_outs s) i = Some c -> nth_error (an_assign a) i = Some (Z.of_nat k) ->
    nth_error (an_parts a) k = Some part -> nth_error (an_alphas a) k = Some alpha ->
    exists v w, dget c (s_zv s') = Some v /\ dget v (s_views s') = Some w /\ c_alpha (v_crp w) = alpha /\
      dkeys (v_rows w) = range (Z.of_nat n) /\ forall r, (r < n)%nat -> dget (Z.of_nat r) (v_rows w) = nth_error part r
}.

Lemma sinv_alpha n s k : sinv n s -> crp_inv k -> c_data k = c_data (s_crp s) -> c_counts k = c_counts (s_crp s) -> sinv n (set_scrp s k).
Proof.
  intros H Hk Ed Ec. pose proof (tinv_crp n [] s k (sinv_tinv n s H) Hk Ed Ec) as T.
  apply (tinv_sinv n [] _ T). intros v [].
Qed.

Section Adopt.
  Context (n : nat) (s : state) (a : Backends.answer) (H : sinv n s) (Ha : answer_ok n s a).
  Let k : crp := Crp (c_N (s_crp s)) (c_data (s_crp s)) (c_counts (s_crp s)) (an_alpha a).
  Let s0 : state := set_scrp s k.

  Lemma adopt_set : crp_set_hypers (s_crp s) (an_alpha a) = (k, Ok tt).
  Proof.
    unfold crp_set_hypers. destruct Ha as [_ [_ [_ [Hp _]]]]. rewrite (proj2 (Rltb_true 0 (an_alpha a)) Hp). reflexivity.
  Qed.
  Lemma adopt_sinv : sinv n s0.
  Proof. apply sinv_alpha; [exact H| |reflexivity|reflexivity]. destruct (si_crp _ _ H) as [H1 [H2 H3]]. split; [exact H1|]. split; assumption. Qed.
  Lemma adopt_fits : fits n s0 (combine (s_outs s) (an_assign a)) (an_parts a).
  Proof.
    destruct Ha as [H1 [H2 [H3 [H4 H5]]]].
    assert (E : map fst (combine (s_outs s) (an_assign a)) = s_outs s) by (apply map_fst_combine; congruence).
    split; [rewrite E; apply (si_nodup _ _ H)|]. split; [intros c; rewrite E; reflexivity|]. split; [|exact H1].
    intros c j Hin. apply in_combine_r in Hin. exact (H5 j Hin).
  Qed.
  Lemma adopt_update seeds : lovecat_update seeds s a =
    take_partitions (fun d => m_coll (a_M d))
      (fun i => let v := (length (an_parts a) - 1 - i)%nat in VSeed (nth v (an_alphas a) 0) (vs_grid (seeds v)) (vs_draw (seeds v)))
      s0 (combine (s_outs s) (an_assign a)) (an_parts a).
  Proof.
    destruct Ha as [H1 [H2 [H3 [H4 H5]]]]. unfold lovecat_update. rewrite (sinv_n_rows n s H). cbn [rbind].
    assert (Ef : forallb (fun p => (Z.of_nat (length p) =? Z.of_nat n)%Z) (an_parts a) = true).
    { apply forallb_forall. intros p Hp. rewrite (H1 p Hp). apply Z.eqb_refl. }
    rewrite Ef, H2, Nat.eqb_refl, H3, Nat.eqb_refl. cbn [negb]. rewrite adopt_set. reflexivity.
  Qed.

  Lemma adopt_taken seeds s' : taken n (fun i => let v := (length (an_parts a) - 1 - i)%nat in
      VSeed (nth v (an_alphas a) 0) (vs_grid (seeds v)) (vs_draw (seeds v))) (combine (s_outs s) (an_assign a)) (an_parts a) s0 s' ->
    length (s_views s') = length (an_parts a) -> adopted n s a s' /\
    (forall v w, dget v (s_views s') = Some w -> exists j, nth_error (an_alphas a) j = Some (c_alpha (v_crp w)) /\ v_grid w = vs_grid (seeds j)).
  Proof.
    destruct Ha as [H1 [H2 [H3 [H4 H5]]]]. intros T Lv. destruct (tk_views _ _ _ _ _ _ T) as [off [To [Tv [Tz Tw]]]].
    assert (Hz : forall i c j, nth_error (s_outs s) i = Some c -> nth_error (an_assign a) i = Some j -> dget c (s_zv s') = Some (j + off)%Z).
    { intros i c j Hc Hj. apply Tz. apply (nth_error_In _ i). rewrite nth_combine, Hc, Hj. reflexivity. }
    assert (Hs : forall i c, nth_error (s_outs s) i = Some c -> exists j, nth_error (an_assign a) i = Some j).
    { intros i c Hc. destruct (nth_error (an_assign a) i) as [j|] eqn:E; [eauto|]. apply nth_error_None in E.
      assert (i < length (s_outs s))%nat by (apply nth_error_Some; congruence). lia. }
    split; [constructor|].
    - exact (tk_data _ _ _ _ _ _ T).
    - exact (tk_alpha _ _ _ _ _ _ T).
    - exact (tk_grid _ _ _ _ _ _ T).
    - exact Lv.
    - exists off. split; [exact To|]. split; [exact Tv|]. intros i c j Hc Hj. rewrite (Hz i c j Hc Hj). f_equal. lia.
    - intros i i' c c' Hc Hc'. destruct (Hs i c Hc) as [j Hj]. destruct (Hs i' c' Hc') as [j' Hj'].
      rewrite (Hz i c j Hc Hj), (Hz i' c' j' Hc' Hj'), Hj, Hj'. split; intros E; injection E as E; f_equal; lia.
    - intros i c j part alpha Hc Hj Hp Hal. destruct (Tw j part Hp) as [w [Ew [Rw [Aw _]]]].
      assert (Hl : (j < length (an_parts a))%nat) by (apply nth_error_Some; congruence).
      exists (off + Z.of_nat j)%Z, w. split; [rewrite (Hz i c _ Hc Hj); f_equal; lia|]. split; [exact Ew|].
      split. { rewrite Aw. cbn [vs_alpha]. replace (length (an_parts a) - 1 - (length (an_parts a) - 1 - j))%nat with j by lia.
        apply nth_error_nth. exact Hal. }
      assert (Lp : length part = n) by (apply H1; eapply nth_error_In; exact Hp).
      assert (Er : length (range (Z.of_nat n)) = length part) by (rewrite length_range; lia).
      assert (Ek : dkeys (v_rows w) = range (Z.of_nat n)) by (rewrite Rw; apply dkeys_combine; exact Er).
      split; [exact Ek|]. intros r Hr. rewrite (dget_by_pos _ n r Ek Hr), Rw, dvals_combine by exact Er. reflexivity.
    - intros v w Hv. assert (Hi : In v (dkeys (s_views s'))) by (eapply dget_Some_in; exact Hv). apply Tv in Hi. destruct Hi as [j [Hj ->]].
      destruct (nth_error (an_parts a) j) as [part|] eqn:Ep; [|apply nth_error_None in Ep; lia].
      destruct (Tw j part Ep) as [w' [Ew' [_ [Aw Gw]]]]. assert (w' = w) by congruence. subst w'. exists j.
      cbn [vs_alpha vs_grid] in Aw, Gw. replace (length (an_parts a) - 1 - (length (an_parts a) - 1 - j))%nat with j in Aw, Gw by lia.
      split; [|exact Gw]. rewrite Aw. apply nth_error_nth'. lia.
  Qed.
End Adopt.

(** The columns have kept their class and their hyperparameters. *)
Definition cols_kept (s s' : state) : Prop :=
  forall c a, dim_for s c = Ok a -> exists a', dim_for s' c = Ok a' /\ asim a a'.

Lemma able_eager n s : sinv n s -> able s -> forall c a, dim_for s c = Ok a -> eager a.
Proof.
  intros H A c a Ea. destruct (dim_for_spec _ _ _ _ H Ea) as [v [w [_ [Ew [Eca _]]]]]. destruct (ab_view _ A v w Ew) as [_ [_ W]]. exact (W c a Eca).
Qed.

(** Taking an answer of lovecat never fails on a state of collapsed columns; the state then
    has the column partition, the row partitions and the concentrations of the answer, and
    the same data in columns of the same classes and hyperparameters; all the invariants
    hold if every partition has a column, and inference on the state again never fails if
    the concentrations are positive. *)
Theorem C60_take n seeds s a : sinv n s -> able s -> answer_ok n s a ->
  exists s', lovecat_update seeds s a = Ok s' /\ adopted n s a s' /\ cols_kept s s' /\
    (answer_onto a -> sinv n s' /\
      ((forall x, In x (an_alphas a) -> 0 < x) -> (forall j, ProgressFacts.positive (vs_grid (seeds j))) -> s_Ci s = [] -> able s')).
Proof.
  intros H A Ha. rewrite (adopt_update n s a H Ha).
  set (k := Crp (c_N (s_crp s)) (c_data (s_crp s)) (c_counts (s_crp s)) (an_alpha a)). set (s0 := set_scrp s k).
  assert (Hd : forall c, dim_for s0 c = dim_for s c) by reflexivity.
  assert (He : forall c d, dim_for s0 c = Ok d -> eager d) by (intros c d E; exact (able_eager n s H A c d E)).
  set (sd := fun i : nat => let v := (length (an_parts a) - 1 - i)%nat in VSeed (nth v (an_alphas a) 0) (vs_grid (seeds v)) (vs_draw (seeds v))).
  destruct (take_total n (fun d => m_coll (a_M d)) sd s0 (combine (s_outs s) (an_assign a)) (an_parts a)
    (adopt_sinv n s a H) (adopt_fits n s a H Ha)) as [s' [E Hk]].
  { intros d Hdd. apply (eager_coll d Hdd). }
  { exact He. }
  destruct (take_ok n (fun d => m_coll (a_M d)) sd s0 (combine (s_outs s) (an_assign a)) (an_parts a)
    (adopt_sinv n s a H) (adopt_fits n s a H Ha) s') as [T [L B]].
  { intros c d Ed. apply (eager_coll d (He c d Ed)). }
  { exact E. }
  destruct (adopt_taken n s a Ha seeds s' T L) as [AD AV].
  exists s'. split; [exact E|]. split; [exact AD|]. split; [exact Hk|]. intros Ho.
  assert (On : onto (combine (s_outs s) (an_assign a)) (an_parts a)).
  { intros i Hi. specialize (Ho i Hi). apply In_nth_error in Ho. destruct Ho as [p Hp].
    assert (Hl : (p < length (an_assign a))%nat) by (apply nth_error_Some; congruence).
    destruct Ha as [_ [_ [H3 _]]]. destruct (nth_error (s_outs s) p) as [c|] eqn:Ec; [|apply nth_error_None in Ec; lia].
    exists c. apply (nth_error_In _ p). rewrite nth_combine, Ec, Hp. reflexivity. }
  pose proof (B On) as H'. split; [exact H'|]. intros Hp Hg HC. constructor.
  - rewrite (ad_alpha _ _ _ _ AD). apply Ha.
  - rewrite (ad_grid _ _ _ _ AD). apply A.
  - intros v w Ew. destruct (AV v w Ew) as [j [Ej Gj]]. split; [apply Hp; eapply nth_error_In; exact Ej|]. split; [rewrite Gj; apply Hg|].
    intros c d Ed. destruct (si_view _ _ H' v w Ew) as [_ [_ [D _]]]. assert (Hz : dget c (s_zv s') = Some v) by (apply D; eapply dget_Some_in; exact Ed).
    assert (Hc : In c (s_outs s)).
    { destruct (ad_data _ _ _ _ AD) as [Eo _]. rewrite <- Eo. apply (si_zv _ _ H'). eapply dget_Some_in; exact Hz. }
    destruct (dim_for_ex n s c H Hc) as [_ [_ [d0 [_ [_ [_ Ed0]]]]]]. destruct (Hk c d0) as [d1 [Ed1 Sd]]; [rewrite Hd; exact Ed0|].
    assert (Ed' : dim_for s' c = Ok d) by (unfold dim_for; rewrite Hz, Ew, Ed; reflexivity).
    assert (d1 = d) by congruence. subst d1. eapply eager_asim; [exact (able_eager n s H A c d0 Ed0)|exact Sd].
  - left. destruct (ad_data _ _ _ _ AD) as [_ [_ [_ Ei]]]. congruence.
Qed.
Print Assumptions C60_take.

(* ------------------------------------------------------------------ *)
(** ** A run of lovecat *)

(** Every column has a type that lovecat knows; the codes of a column of categories are
    from 0 to [k - 1], and at least one is observed. *)
Definition typed (n : nat) (s : state) (cats : Z -> list R) (types : list ctype) : Prop :=
  length types = length (s_outs s) /\
  forall i c t, nth_error (s_outs s) i = Some c -> nth_error types i = Some t -> t <> TOther /\
    forall k, t = TCategorical k -> categories n s c k (cats c) /\ cats c <> [].

(** What lovecat is given. *)
Definition given (s : state) (cats : Z -> list R) (types : list ctype) (N : option Z) (S : option R) (cols : list Z)
  (M_c : list meta) (T : list (list cell)) (L : latent) (X_D : list (list Z)) (b : Z * R) (p : list nat) : Prop :=
  crosscat_M_c cats types s = Ok M_c /\ crosscat_T s M_c = Ok T /\ crosscat_X_L s M_c X_D = Ok L /\ crosscat_X_D s = Ok X_D /\
  fst b = match N with Some m => m | None => 150000%Z end /\ snd b = match S with Some x => x | None => -1 end /\
  Forall2 (fun c i => nth_error (s_outs s) i = Some c) cols p.

Lemma positions_ok outs cols : (forall c, In c cols -> In c outs) ->
  exists p, rsequence (map (fun c => index_of c outs) cols) = Ok p /\ Forall2 (fun c i => nth_error outs i = Some c) cols p.
Proof.
  induction cols as [|c cols IH]; intros H; cbn [map rsequence]; [exists []; split; [reflexivity|constructor]|].
  destruct (index_of_in c outs (H c (or_introl eq_refl))) as [i Ei]. rewrite Ei. cbn [rbind].
  destruct IH as [p [Ep F]]; [intros c' Hc'; apply H; right; exact Hc'|]. rewrite Ep. cbn [rbind]. exists (i :: p).
  split; [reflexivity|]. constructor; [apply ColumnFacts.index_of_spec; exact Ei|exact F].
Qed.

Lemma typed_given n s cats types N S cols : sinv n s -> (0 < n)%nat -> typed n s cats types -> (N <> None \/ S <> None) ->
  (forall c, In c cols -> In c (s_outs s)) ->
  exists M_c T L X_D b p, given s cats types N S cols M_c T L X_D b p /\ lovecat_budget N S = Ok b /\
    rsequence (map (fun c => index_of c (s_outs s)) cols) = Ok p /\
    forallb (fun t => match t with TOther => false | _ => true end) types = true /\
    (forall m, In m M_c -> mt_normal m = true \/ mt_code m <> []).
Proof.
  intros H Hn [Lt Ht] HN Hc.
  destruct (table_ok n s cats types H Lt) as [M_c [T [E1 [E2 [L1 [_ [Hm _]]]]]]].
  { intros i c t Hi Hti. destruct (Ht i c t Hi Hti) as [A B]. split; [exact A|]. intros k Ek. apply (B k Ek). }
  assert (HM : forall m, In m M_c -> mt_normal m = true \/ mt_code m <> []).
  { intros m Hin. apply In_nth_error in Hin. destruct Hin as [i Hi]. assert (Hl : (i < length M_c)%nat) by (apply nth_error_Some; congruence).
    destruct (nth_error (s_outs s) i) as [c|] eqn:Ec; [|apply nth_error_None in Ec; lia].
    destruct (nth_error types i) as [t|] eqn:Et; [|apply nth_error_None in Et; lia].
    apply (Hm i c m Ec Hi). destruct (Ht i c t Ec Et) as [A B]. destruct t as [|k|]; [right; exact Et|left; apply (B k eq_refl)|congruence]. }
  destruct (handed_ok n s H Hn M_c HM) as [X_D [L [E3 [E4 _]]]].
  destruct (positions_ok (s_outs s) cols Hc) as [p [Ep Fp]].
  assert (Eb : exists b, lovecat_budget N S = Ok b /\ fst b = match N with Some m => m | None => 150000%Z end /\
    snd b = match S with Some x => x | None => -1 end).
  { destruct N as [m|], S as [x|]; cbn [lovecat_budget]; try (eexists; split; [reflexivity|]; split; reflexivity). destruct HN; congruence. }
  destruct Eb as [b [Eb [B1 B2]]]. exists M_c, T, L, X_D, b, p. split; [repeat split; assumption|].
  split; [exact Eb|]. split; [exact Ep|]. split; [|exact HM]. apply forallb_forall. intros t Hin. apply In_nth_error in Hin. destruct Hin as [i Hi].
  assert (Hl : (i < length types)%nat) by (apply nth_error_Some; congruence).
  destruct (nth_error (s_outs s) i) as [c|] eqn:Ec; [|apply nth_error_None in Ec; lia].
  destruct (Ht i c t Ec Hi) as [A _]. destruct t; congruence.
Qed.

(** A run of lovecat with a number of steps, a number of seconds or both never fails on a
    state of collapsed columns, whatever valid answer lovecat gives; the state takes the
    answer. *)
Theorem C60_lovecat n engine seeds cats types N S cols s : sinv n s -> able s -> (0 < n)%nat -> typed n s cats types ->
  (N <> None \/ S <> None) -> (forall c, In c cols -> In c (s_outs s)) ->
  (forall M_c T L X_D b p, given s cats types N S cols M_c T L X_D b p -> answer_ok n s (engine M_c T L X_D b p)) ->
  exists s' M_c T L X_D b p, lovecat engine seeds cats types N S cols s = Ok s' /\
    given s cats types N S cols M_c T L X_D b p /\ adopted n s (engine M_c T L X_D b p) s' /\ cols_kept s s' /\
    (answer_onto (engine M_c T L X_D b p) -> sinv n s').
Proof.
  intros H A Hn Ht HN Hc He.
  destruct (typed_given n s cats types N S cols H Hn Ht HN Hc) as [M_c [T [L [X_D [b [p [G [Eb [Ep [Ef _]]]]]]]]]].
  destruct (C60_take n seeds s (engine M_c T L X_D b p) H A (He _ _ _ _ _ _ G)) as [s' [E [AD [CK HO]]]].
  exists s', M_c, T, L, X_D, b, p. split; [|split; [exact G|]; split; [exact AD|]; split; [exact CK|]; intros Ho; apply (HO Ho)].
  destruct (all_dims_total n s H A) as [ds [Ed Hd]]. destruct G as [E1 [E2 [E3 [E4 _]]]].
  unfold lovecat. rewrite Ef. cbn [negb]. rewrite Ed. cbn [rbind]. rewrite Hd, Eb. cbn [rbind]. rewrite Ep. cbn [rbind].
  rewrite E1. cbn [rbind]. rewrite E2. cbn [rbind]. rewrite E4. cbn [rbind]. rewrite E3. cbn [rbind]. exact E.
Qed.
Print Assumptions C60_lovecat.

(** The sampler that returns what it is given. *)
Definition echo (M_c : list meta) (T : list (list cell)) (L : latent) (X_D : list (list Z)) (b : Z * R) (p : list nat) : Backends.answer :=
  Answer (xl_assign L) (xl_alpha L) (map vt_alpha (xl_views L)) X_D.

Lemma rows_length n s v w : sinv n s -> dget v (s_views s) = Some w -> length (v_rows w) = n.
Proof.
  intros H Ew. destruct (si_view _ _ H v w Ew) as [[[Nd _] _] [_ [_ Hr]]].
  assert (P : Permutation (dkeys (v_rows w)) (range (Z.of_nat n))).
  { apply NoDup_Permutation; [exact Nd|apply NoDup_range|]. intros r. rewrite in_range. apply Hr. }
  apply Permutation_length in P. unfold dkeys in P. rewrite map_length, length_range in P. lia.
Qed.

(** What it is given is a valid answer. *)
Lemma echo_ok n s cats types N S cols M_c T L X_D b p : sinv n s -> able s -> (0 < n)%nat -> typed n s cats types ->
  (N <> None \/ S <> None) -> (forall c, In c cols -> In c (s_outs s)) ->
  given s cats types N S cols M_c T L X_D b p ->
    answer_ok n s (echo M_c T L X_D b p) /\ answer_onto (echo M_c T L X_D b p) /\
    (forall i c v w, nth_error (s_outs s) i = Some c -> dget c (s_zv s) = Some v -> dget v (s_views s) = Some w ->
      exists j part, nth_error (xl_assign L) i = Some (Z.of_nat j) /\ nth_error X_D j = Some part /\
        nth_error (map vt_alpha (xl_views L)) j = Some (c_alpha (v_crp w)) /\ relabels (dvals (v_rows w)) part) /\
    (forall i i' c c', nth_error (s_outs s) i = Some c -> nth_error (s_outs s) i' = Some c' ->
      (nth_error (xl_assign L) i = nth_error (xl_assign L) i' <-> dget c (s_zv s) = dget c' (s_zv s))) /\
    xl_alpha L = c_alpha (s_crp s).
Proof.
  intros H A Hn Ht HN Hc [E1 [E2 [E3 [E4 _]]]].
  destruct (typed_given n s cats types N S cols H Hn Ht HN Hc) as [M' [T' [L' [X' [b' [p' [[F1 _] [_ [_ [_ HM]]]]]]]]]].
  assert (M' = M_c) by congruence. subst M'.
  destruct (handed_ok n s H Hn M_c HM) as [X2 [L2 [E5 [E6 [La [[K [HK [NK [LK1 [LK2 _]]]]] [Al [Hv Hs]]]]]]]].
  assert (X2 = X_D) by congruence. subst X2. assert (L2 = L) by congruence. subst L2.
  split; [|split; [|split; [|split; [exact Hs|exact Al]]]].
  - split; [|split; [|split; [|split]]]; cbn [echo an_parts an_alphas an_assign an_alpha].
    + destruct (X_D_ok n s H) as [X2 [E5' F]]. assert (X2 = X_D) by congruence. subst X2. intros part Hp.
      apply In_nth_error in Hp. destruct Hp as [j Hj].
      assert (Hl : (j < length X_D)%nat) by (apply nth_error_Some; congruence).
      destruct (nth_error (uniq (dvals (s_zv s))) j) as [v|] eqn:Ev; [|apply nth_error_None in Ev; rewrite (Forall2_length' _ _ _ F) in Ev; lia].
      destruct (Forall2_nth _ _ _ _ _ F Ev) as [part' [Ep [w [Ew Er]]]]. assert (part' = part) by congruence. subst part'.
      destruct (row_codes_ok w) as [m [Em [[Lm _] _]]]. assert (m = part) by congruence. subst m. rewrite Lm, length_dvals.
      exact (rows_length n s v w H Ew).
    + rewrite map_length. congruence.
    + exact La.
    + rewrite Al. apply A.
    + intros k Hk. apply NK in Hk. rewrite LK1. lia.
  - intros i Hi. cbn [echo an_parts an_assign] in *. apply NK. lia.
  - intros i c v w Hi Hz Hw. destruct (Hv i c v w Hi Hz Hw) as [j [part [vs [H1 [H2 [H3 [T1 [_ [_ [_ T5]]]]]]]]]].
    exists j, part. split; [exact H1|]. split; [exact H2|]. split; [|exact T1]. rewrite nth_error_map, H3. cbn. congruence.
Qed.

(** What is handed over and what is taken agree: a sampler that returns what it is given
    leaves the partitions and the concentrations as they were, as long as the rows of the
    views are in order.  What is missing: states that have moved a row, for which it is
    false (see [C60_roundtrip_refuted]). *)
Theorem C60_roundtrip_partial n seeds cats types N S cols s : sinv n s -> able s -> (0 < n)%nat -> typed n s cats types ->
  (N <> None \/ S <> None) -> (forall c, In c cols -> In c (s_outs s)) ->
  (forall v w, dget v (s_views s) = Some w -> in_order n w) ->
  exists s', lovecat echo seeds cats types N S cols s = Ok s' /\ sinv n s' /\ cols_kept s s' /\ same_data s s' /\
    c_alpha (s_crp s') = c_alpha (s_crp s) /\
    (forall c c', In c (s_outs s) -> In c' (s_outs s) -> (dget c (s_zv s') = dget c' (s_zv s') <-> dget c (s_zv s) = dget c' (s_zv s))) /\
    (forall c v w, dget c (s_zv s) = Some v -> dget v (s_views s) = Some w ->
      exists v' w', dget c (s_zv s') = Some v' /\ dget v' (s_views s') = Some w' /\ c_alpha (v_crp w') = c_alpha (v_crp w) /\
        forall r r', (0 <= r < Z.of_nat n)%Z -> (0 <= r' < Z.of_nat n)%Z ->
          (dget r (v_rows w') = dget r' (v_rows w') <-> dget r (v_rows w) = dget r' (v_rows w))).
Proof.
  intros H A Hn Ht HN Hc Ho.
  destruct (C60_lovecat n echo seeds cats types N S cols s H A Hn Ht HN Hc) as [s' [M_c [T [L [X_D [b [p [E [G [AD [CK HO]]]]]]]]]]].
  { intros M_c T L X_D b p G. apply (echo_ok n s cats types N S cols M_c T L X_D b p); assumption. }
  destruct (echo_ok n s cats types N S cols M_c T L X_D b p H A Hn Ht HN Hc G) as [AO [AN [PV [PS PA]]]].
  exists s'. split; [exact E|]. split; [apply HO, AN|]. split; [exact CK|]. split; [apply AD|].
  split; [rewrite (ad_alpha _ _ _ _ AD); exact PA|].
  assert (Pos : forall c, In c (s_outs s) -> exists i, nth_error (s_outs s) i = Some c) by (intros c Hin; apply In_nth_error; exact Hin).
  split.
  - intros c c' Hi Hi'. destruct (Pos c Hi) as [i Ei]. destruct (Pos c' Hi') as [i' Ei'].
    rewrite (ad_cols _ _ _ _ AD i i' c c' Ei Ei'). exact (PS i i' c c' Ei Ei').
  - intros c v w Hz Hw. assert (Hi : In c (s_outs s)) by (apply (si_zv _ _ H); eapply dget_Some_in; exact Hz).
    destruct (Pos c Hi) as [i Ei]. destruct (PV i c v w Ei Hz Hw) as [j [part [H1 [H2 [H3 [Lr Rr]]]]]].
    destruct (ad_view _ _ _ _ AD i c j part _ Ei H1 H2 H3) as [v' [w' [Ez' [Ew' [Aw' [_ Rw']]]]]].
    exists v', w'. split; [exact Ez'|]. split; [exact Ew'|]. split; [exact Aw'|].
    intros r r' Hr Hr'. replace r with (Z.of_nat (Z.to_nat r)) by lia. replace r' with (Z.of_nat (Z.to_nat r')) by lia.
    rewrite !Rw' by lia. pose proof (Ho v w Hw) as Hin. rewrite !(dget_by_pos _ n) by (try exact Hin; lia).
    assert (Lv : length (dvals (v_rows w)) = n) by (rewrite length_dvals; exact (rows_length n s v w H Hw)).
    apply Rr; lia.
Qed.
Print Assumptions C60_roundtrip_partial.

(** With its default arguments a run of lovecat on a state of collapsed columns fails. *)
Theorem C60_defaults n engine seeds cats types cols s : sinv n s -> able s -> typed n s cats types ->
  lovecat engine seeds cats types None None cols s = Err AssertionError.
Proof.
  intros H A [Lt Ht]. unfold lovecat. assert (Ef : forallb (fun t => match t with TOther => false | _ => true end) types = true).
  { apply forallb_forall. intros t Hin. apply In_nth_error in Hin. destruct Hin as [i Hi].
    assert (Hl : (i < length types)%nat) by (apply nth_error_Some; congruence).
    destruct (nth_error (s_outs s) i) as [c|] eqn:Ec; [|apply nth_error_None in Ec; lia].
    destruct (Ht i c t Ec Hi) as [B _]. destruct t; congruence. }
  rewrite Ef. cbn [negb]. destruct (all_dims_total n s H A) as [ds [Ed Hd]]. rewrite Ed. cbn [rbind]. rewrite Hd. reflexivity.
Qed.
Print Assumptions C60_defaults.

(** A column of categories without an observed value makes the run fail. *)
Theorem C60_missing n engine seeds cats types N S cols s i c k : sinv n s -> able s -> (0 < n)%nat -> length types = length (s_outs s) ->
  (forall i c t, nth_error (s_outs s) i = Some c -> nth_error types i = Some t -> t <> TOther /\
     forall k, t = TCategorical k -> categories n s c k (cats c)) ->
  (N <> None \/ S <> None) -> (forall c, In c cols -> In c (s_outs s)) ->
  nth_error (s_outs s) i = Some c -> nth_error types i = Some (TCategorical k) -> cats c = [] ->
  lovecat engine seeds cats types N S cols s = Err AssertionError.
Proof.
  intros H A Hn Lt Ht HN Hc Ei Ek Em. unfold lovecat.
  assert (Ef : forallb (fun t => match t with TOther => false | _ => true end) types = true).
  { apply forallb_forall. intros t Hin. apply In_nth_error in Hin. destruct Hin as [j Hj].
    assert (Hl : (j < length types)%nat) by (apply nth_error_Some; congruence).
    destruct (nth_error (s_outs s) j) as [c'|] eqn:Ec; [|apply nth_error_None in Ec; lia].
    destruct (Ht j c' t Ec Hj) as [B _]. destruct t; congruence. }
  rewrite Ef. cbn [negb]. destruct (all_dims_total n s H A) as [ds [Ed Hd]]. rewrite Ed. cbn [rbind]. rewrite Hd.
  destruct (positions_ok (s_outs s) cols Hc) as [p [Ep _]].
  assert (Eb : exists b, lovecat_budget N S = Ok b).
  { destruct N as [m|], S as [x|]; cbn [lovecat_budget]; try (eexists; reflexivity). destruct HN; congruence. }
  destruct Eb as [b Eb]. rewrite Eb. cbn [rbind]. rewrite Ep. cbn [rbind].
  destruct (table_ok n s cats types H Lt Ht) as [M_c [T [E1 [E2 [L1 _]]]]]. rewrite E1. cbn [rbind]. rewrite E2. cbn [rbind].
  destruct (X_D_ok n s H) as [X_D [E3 _]]. rewrite E3. cbn [rbind].
  assert (Hbad : forallb (fun m => mt_normal m || (0 <? length (mt_code m))%nat) M_c = false).
  { unfold crosscat_M_c in E1. destruct (negb _) in E1; [discriminate|]. rewrite Ef in E1. cbn [negb] in E1.
    apply not_true_is_false. intros F. rewrite forallb_forall in F.
    apply rsequence_ok in E1. apply (f_equal (fun l => nth_error l i)) in E1.
    rewrite !nth_error_map, nth_combine, Ei, Ek in E1. cbn [option_map fst snd] in E1. rewrite Em in E1.
    destruct (nth_error M_c i) as [m|] eqn:Hm; [|discriminate]. cbn in E1. injection E1 as <-.
    apply nth_error_In in Hm. specialize (F _ Hm). discriminate F. }
  unfold crosscat_X_L. rewrite Hbad. reflexivity.
Qed.
Print Assumptions C60_missing.

(* ------------------------------------------------------------------ *)
(** ** Taking an answer of loom *)

(** [s'] is [s] with the partitions of the sample. *)
Record loomed (n : nat) (s : state) (x : sample) (s' : state) : Prop := {
  lo_data : same_data s s';
  lo_alpha : c_alpha (s_crp s') = c_alpha (s_crp s);
  lo_count : length (s_views s') = length (sm_kinds x);
  lo_cols : forall c c' k k', in_kind x c k -> in_kind x c' k' -> (dget c (s_zv s') = dget c' (s_zv s') <-> k = k');
  lo_rows : forall c k, in_kind x c k -> exists v w, dget c (s_zv s') = Some v /\ dget v (s_views s') = Some w /\
    dkeys (v_rows w) = range (Z.of_nat n) /\
    forall r g, (0 <= r < Z.of_nat n)%Z -> (dget r (v_rows w) = Some g <-> in_group x r k g)
}.

Lemma loom_taken n s x seeds s' assign parts : proper n (s_outs s) x -> fits n s assign parts -> taken n seeds assign parts s s' ->
  length (s_views s') = length parts -> length parts = length (sm_kinds x) ->
  (forall c k, In (c, k) assign <-> exists j, k = Z.of_nat j /\ in_kind x c j) ->
  (forall k part r g, nth_error parts k = Some part -> (nth_error part r = Some g <-> in_group x (Z.of_nat r) k g)) ->
  loomed n s x s' /\
  (forall v w, dget v (s_views s') = Some w -> exists j, c_alpha (v_crp w) = vs_alpha (seeds j) /\ v_grid w = vs_grid (seeds j)).
Proof.
  intros Hx [_ [_ [_ HL]]] T L1 L2 Ha Hp. destruct (tk_views _ _ _ _ _ _ T) as [off [_ [Tv [Tz Tw]]]].
  assert (Hz : forall c k, in_kind x c k -> dget c (s_zv s') = Some (Z.of_nat k + off)%Z).
  { intros c k Hk. apply Tz, Ha. eauto. }
  split; [constructor|].
  - exact (tk_data _ _ _ _ _ _ T).
  - exact (tk_alpha _ _ _ _ _ _ T).
  - congruence.
  - intros c c' k k' Hk Hk'. rewrite (Hz c k Hk), (Hz c' k' Hk'). split; [intros E; injection E as E; lia|intros ->; reflexivity].
  - intros c k Hk. assert (Hl : (k < length parts)%nat).
    { rewrite L2. destruct Hk as [f [kind [_ [E _]]]]. apply nth_error_Some. congruence. }
    destruct (nth_error parts k) as [part|] eqn:Ep; [|apply nth_error_None in Ep; lia].
    destruct (Tw k part Ep) as [w [Ew [Rw _]]]. exists (off + Z.of_nat k)%Z, w.
    split; [rewrite (Hz c k Hk); f_equal; lia|]. split; [exact Ew|].
    assert (Lp : length part = n) by (apply HL; eapply nth_error_In; exact Ep).
    assert (Er : length (range (Z.of_nat n)) = length part) by (rewrite length_range; lia).
    assert (Ek : dkeys (v_rows w) = range (Z.of_nat n)) by (rewrite Rw; apply dkeys_combine; exact Er).
    split; [exact Ek|]. intros r g Hr. replace r with (Z.of_nat (Z.to_nat r)) by lia.
    rewrite (dget_by_pos _ n _ Ek) by lia. rewrite Rw, dvals_combine by exact Er. apply Hp. exact Ep.
  - intros v w Hv. assert (Hi : In v (dkeys (s_views s'))) by (eapply dget_Some_in; exact Hv). apply Tv in Hi. destruct Hi as [j [Hj ->]].
    destruct (nth_error parts j) as [part|] eqn:Ep; [|apply nth_error_None in Ep; lia].
    destruct (Tw j part Ep) as [w' [Ew' [_ [Aw Gw]]]]. assert (w' = w) by congruence. subst w'. eauto.
Qed.

(** A state with columns of any class takes a valid sample of loom or fails; when it takes
    it, it has the partitions of the sample, and all its invariants hold. *)
Theorem C60_loom_safe n seeds s x s' : sinv n s -> proper n (s_outs s) x -> loom_update seeds s x = Ok s' ->
  loomed n s x s' /\ sinv n s'.
Proof.
  intros H Hx. destruct (loom_prefix n s x H Hx seeds) as [assign [parts [-> [HF [HO [L [Ha Hp]]]]]]]. intros E.
  destruct (take_ok n (fun _ => true) seeds s assign parts H HF s' (fun _ _ _ => eq_refl) E) as [T [L' B]].
  split; [|apply B, HO]. apply (loom_taken n s x seeds s' assign parts Hx HF T L' L Ha Hp).
Qed.
Print Assumptions C60_loom_safe.

(** On a state of collapsed columns taking a valid sample never fails, the columns keep
    their classes and hyperparameters, and inference again never fails. *)
Theorem C60_loom n seeds s x : sinv n s -> able s -> proper n (s_outs s) x ->
  exists s', loom_update seeds s x = Ok s' /\ loomed n s x s' /\ sinv n s' /\ cols_kept s s' /\
    ((forall j, 0 < vs_alpha (seeds j) /\ ProgressFacts.positive (vs_grid (seeds j))) -> s_Ci s = [] -> able s').
Proof.
  intros H A Hx. destruct (loom_prefix n s x H Hx seeds) as [assign [parts [Eq [HF [HO [L [Ha Hp]]]]]]].
  destruct (take_total n (fun _ => true) seeds s assign parts H HF) as [s' [E Hk]]; [reflexivity|exact (able_eager n s H A)|].
  destruct (take_ok n (fun _ => true) seeds s assign parts H HF s' (fun _ _ _ => eq_refl) E) as [T [L' B]].
  destruct (loom_taken n s x seeds s' assign parts Hx HF T L' L Ha Hp) as [LO LV].
  exists s'. split; [congruence|]. split; [exact LO|]. pose proof (B HO) as H'. split; [exact H'|]. split; [exact Hk|].
  intros Hs HC. constructor.
  - rewrite (lo_alpha _ _ _ _ LO). apply A.
  - rewrite (tk_grid _ _ _ _ _ _ T). apply A.
  - intros v w Ew. destruct (LV v w Ew) as [j [Ej Gj]]. split; [rewrite Ej; apply Hs|]. split; [rewrite Gj; apply Hs|].
    intros c d Ed. destruct (si_view _ _ H' v w Ew) as [_ [_ [D _]]]. assert (Hz : dget c (s_zv s') = Some v) by (apply D; eapply dget_Some_in; exact Ed).
    assert (Hc : In c (s_outs s)).
    { destruct (lo_data _ _ _ _ LO) as [Eo _]. rewrite <- Eo. apply (si_zv _ _ H'). eapply dget_Some_in; exact Hz. }
    destruct (dim_for_ex n s c H Hc) as [_ [_ [d0 [_ [_ [_ Ed0]]]]]]. destruct (Hk c d0 Ed0) as [d1 [Ed1 Sd]].
    assert (Ed' : dim_for s' c = Ok d) by (unfold dim_for; rewrite Hz, Ew, Ed; reflexivity).
    assert (d1 = d) by congruence. subst d1. eapply eager_asim; [exact (able_eager n s H A c d0 Ed0)|exact Sd].
  - left. destruct (lo_data _ _ _ _ LO) as [_ [_ [_ Ei]]]. congruence.
Qed.
Print Assumptions C60_loom.

(* ------------------------------------------------------------------ *)
(** ** Examples *)

Lemma spec_ex M h G x tape : collapsed M h -> (forall lbes, M <> M_vonmises lbes) -> grids_of M G -> takes M x ->
  exists k, cs_col k = ADim M (dim_new M h true [] tape) /\ spec_ok k /\ picks_in (cs_grids k) (cs_picks k).
Proof.
  intros Hc Hv Hg Hx. destruct (C59_grids M G [x] 30 Hg Hv) as [gs [_ [HL HG]]]; [discriminate|intros y [<-|[]]; exact Hx|lia|].
  exists (CSpec (ADim M (dim_new M h true [] tape)) gs (fun _ => 0%nat)). cbn [cs_col cs_grids cs_picks]. split; [reflexivity|]. split.
  - split; [exists M, h, true, tape; auto|]. split; [exact HL|exact HG].
  - intros i g Hi. destruct (HG i g Hi) as [Hne _]. destruct g; [congruence|]. cbn. lia.
Qed.

Definition bx_cat := M_categorical lgam_w 3.
Definition bx_nor := M_normal lgam_w.

Lemma not_vm_nhyp M : m_nhyp M <> 3%nat -> forall lbes, M <> M_vonmises lbes.
Proof. intros H lbes ->. apply H. reflexivity. Qed.

Lemma bx_specs : exists kc kn,
  (a_M (cs_col kc) = bx_cat /\ spec_ok kc /\ picks_in (cs_grids kc) (cs_picks kc) /\
   forall x, match x with None => True | Some v => exists i, (i < 3)%nat /\ v = INR i end -> accepted (cs_col kc) x) /\
  (a_M (cs_col kn) = bx_nor /\ spec_ok kn /\ picks_in (cs_grids kn) (cs_picks kn) /\ forall x, accepted (cs_col kn) x).
Proof.
  assert (T1 : takes bx_cat 0).
  { exists (m_new bx_cat 1 tt), 0%Z.
    assert (Hs : exists v, p_check (Categorical lgam_w 3) 0 = Ok v) by (eexists; apply cat_sup; exists 0%nat; cbn; split; [lia|reflexivity]).
    destruct Hs as [v Hs]. eexists. cbn [bx_cat m_inc M_categorical of_prim]. unfold prim_incorporate. cbn [m_new p_data]. rewrite Hs. reflexivity. }
  assert (T2 : takes bx_nor 0) by (exists (m_new bx_nor (NHyp 0 1 1 1) tt), 0%Z; eexists; reflexivity).
  destruct (spec_ex bx_cat 1 cat_grids 0 (fun _ => tt)) as [kc [E1 [S1 P1]]].
  { apply col_categorical; [apply lgam_w_rec|lra|lia]. }
  { apply not_vm_nhyp. discriminate. }
  { constructor. }
  { exact T1. }
  destruct (spec_ex bx_nor (NHyp 0 1 1 1) normal_grids 0 (fun _ => tt)) as [kn [E2 [S2 P2]]].
  { apply col_normal; cbn; lra. }
  { apply not_vm_nhyp. discriminate. }
  { constructor. }
  { exact T2. }
  exists kc, kn. split; (split; [rewrite E1 || rewrite E2; reflexivity|]; split; [assumption|]; split; [assumption|]); intros x.
  - intros Hx. rewrite E1. apply (C59_cells bx_cat _ _ x (h_categorical lgam_w 3)). exact Hx.
  - rewrite E2. apply (C59_cells bx_nor _ _ x (h_normal lgam_w)). destruct x; exact I.
Qed.

(** The state of a column of three categories and a column of numbers, with any partition
    of the columns. *)
Lemma bx_state (l4 : list cell) zv Ci order : length l4 = 3%nat ->
  (forall x, In x l4 -> match x with None => True | Some v => exists i, (i < 3)%nat /\ v = INR i end) ->
  NoDup (map fst zv) -> (forall c, In c (map fst zv) <-> In c [4; 9]%Z) -> NoDup order -> (forall v, In v order <-> In v (map snd zv)) ->
  keeps_apart zv Ci order ->
  exists s, sreach safe s /\ sinv 3 s /\ able s /\ s_X s = [(4%Z, l4); (9%Z, [Some (3/2); None; Some (-1)])] /\ s_outs s = [4; 9]%Z /\
    s_Cd s = [] /\ s_Ci s = Ci /\ (forall c v, dget c (s_zv s) = Some v <-> In (c, v) zv).
Proof.
  intros L4 H4 Z1 Z2 O1 O2 KA. destruct bx_specs as [kc [kn [[C1 [C2 [C3 C4]]] [N1 [N2 [N3 N4]]]]]].
  set (X := [(4%Z, l4); (9%Z, [Some (3/2); None; Some (-1)])]).
  assert (HL : forall c l, dget c X = Some l -> length l = 3%nat).
  { intros c l. unfold X. cbn [dget]. destruct (c =? 4)%Z; [intros E; injection E as <-; exact L4|].
    destruct (c =? 9)%Z; [intros E; injection E as <-; reflexivity|discriminate]. }
  destruct (C59_init X zv 1 [1; 2] [] Ci (fun _ => VSpec ex_seed None) (fun c => if (c =? 4)%Z then kc else kn) order 3)
    as [s [E [R [A [EX [Eo [Ec [Ei [_ [Ez _]]]]]]]]]].
  - discriminate.
  - repeat constructor; cbn; intuition discriminate.
  - exact HL.
  - exact Z1.
  - exact Z2.
  - exact O1.
  - exact O2.
  - exact KA.
  - lra.
  - split; [discriminate|]. intros x [<-|[<-|[]]]; lra.
  - intros v. split; [cbn; lra|]. split; [split; [discriminate|intros x [<-|[<-|[]]]; lra]|]. intros i. apply C16_draw_ex.
  - intros c [<-|[<-|[]]]; cbn [Z.eqb Pos.eqb]; (split; [assumption|]; split; [assumption|]); intros l x El Hx.
    + apply C4, H4. cbn in El. injection El as <-. exact Hx.
    + apply N4.
  - exists s. destruct (sreach_sinv s R) as [m H]. assert (Em : n_rows s = Ok 3%Z).
    { unfold n_rows. rewrite Eo, EX. unfold X. cbn. rewrite L4. reflexivity. }
    rewrite (sinv_n_rows m s H) in Em. injection Em as Em. assert (m = 3%nat) by lia. subst m.
    do 3 (split; [assumption|]). split; [exact EX|]. split; [exact Eo|]. auto.
Qed.

Definition bx_cats (c : Z) : list R := [2; 0].
Definition bx_types : list ctype := [TCategorical 3; TNormal].
Definition bx_l4 : list cell := [Some 2; Some 0; None].

Lemma bx_typed s : sinv 3 s -> s_X s = [(4%Z, bx_l4); (9%Z, [Some (3/2); None; Some (-1)])] -> s_outs s = [4; 9]%Z ->
  typed 3 s bx_cats bx_types.
Proof.
  intros H EX Eo. split; [rewrite Eo; reflexivity|]. intros i c t. rewrite Eo. intros Hi Ht.
  destruct i as [|[|i]]; cbn in Hi, Ht; [injection Hi as <-; injection Ht as <-|injection Hi as <-; injection Ht as <-|destruct i; discriminate].
  - split; [discriminate|]. intros k E. injection E as <-. split; [|discriminate]. split; [|split].
    + repeat constructor; cbn; intuition lra.
    + intros v. rewrite EX. split.
      * intros [<-|[<-|[]]]; [exists 0%Z|exists 1%Z]; (split; [lia|reflexivity]).
      * intros [r [Hr E]]. assert (D : (r = 0 \/ r = 1 \/ r = 2)%Z) by lia. destruct D as [-> |[-> | ->]]; cbn in E; try discriminate; injection E as <-; cbn; auto.
    + intros v [<-|[<-|[]]]; [exists 2%Z|exists 0%Z]; (split; [reflexivity|lia]).
  - split; discriminate.
Qed.

Lemma bx_l4_ok x : In x bx_l4 -> match x with None => True | Some v => exists i, (i < 3)%nat /\ v = INR i end.
Proof. intros [<-|[<-|[<-|[]]]]; [exists 2%nat; split; [lia|cbn; lra]|exists 0%nat; split; [lia|reflexivity]|exact I]. Qed.

(** A state whose two columns are in two views. *)
Lemma bx_two : exists s, sreach safe s /\ sinv 3 s /\ able s /\ typed 3 s bx_cats bx_types /\ s_outs s = [4; 9]%Z /\
  s_X s = [(4%Z, bx_l4); (9%Z, [Some (3/2); None; Some (-1)])] /\ s_Ci s = [] /\
  (forall c v, dget c (s_zv s) = Some v <-> In (c, v) [(4, 0); (9, 1)]%Z).
Proof.
  destruct (bx_state bx_l4 [(4, 0); (9, 1)]%Z [] [0; 1]%Z) as [s [R [H [A [EX [Eo [Ec [Ei Ez]]]]]]]].
  - reflexivity.
  - exact bx_l4_ok.
  - repeat constructor; cbn; intuition discriminate.
  - intros c. reflexivity.
  - repeat constructor; cbn; intuition discriminate.
  - intros v. reflexivity.
  - left. reflexivity.
  - exists s. do 3 (split; [assumption|]). split; [apply bx_typed; assumption|]. auto.
Qed.

(** The table of the state: 2 and 0 have the codes 0 and 1. *)
Example C60_table_ex : exists s M_c, sinv 3 s /\ crosscat_M_c bx_cats bx_types s = Ok M_c /\
  crosscat_T s M_c = Ok [[Some 0; Some (3/2)]; [Some 1; None]; [None; Some (-1)]].
Proof.
  destruct bx_two as [s [_ [H [_ [[Lt Ht] [Eo [EX _]]]]]]].
  destruct (C60_table 3 s bx_cats bx_types H Lt) as [M_c [T [E1 [E2 [LM [LT [LR F]]]]]]].
  { intros i c t Hi Hti. destruct (Ht i c t Hi Hti) as [P Q]. split; [exact P|]. intros k Ek. apply (Q k Ek). }
  exists s, M_c. split; [exact H|]. split; [exact E1|]. rewrite E2. f_equal.
  assert (G : forall r x x', (r < 3)%nat -> tab (s_X s) 4%Z (Z.of_nat r) = Ok x -> tab (s_X s) 9%Z (Z.of_nat r) = Ok x' ->
    exists y, nth_error T r = Some [y; x'] /\
      match x with None => y = None | Some v => exists j, nth_error [2; 0] j = Some v /\ y = Some (INR j) end).
  { intros r x x' Hr E4 E9. destruct (F r 0%nat 4%Z (TCategorical 3) x) as [row [y [m [Er [Ey [_ Ec]]]]]]; [rewrite Eo; reflexivity|reflexivity|exact E4|exact Hr|].
    destruct (F r 1%nat 9%Z TNormal x') as [row' [y' [m' [Er' [Ey' [_ Ec']]]]]]; [rewrite Eo; reflexivity|reflexivity|exact E9|exact Hr|].
    assert (row' = row) by congruence. subst row'. pose proof (LR r row Er) as Lr. rewrite Eo in Lr. cbn in Ec'. subst y'.
    destruct row as [|a [|a' [|]]]; try discriminate Lr. cbn in Ey, Ey'. injection Ey as ->. injection Ey' as ->. exists y. split; [exact Er|].
    cbn in Ec. destruct x as [v|]; [|exact Ec]. destruct Ec as [j [Ej [-> _]]]. exists j. auto. }
  destruct (G 0%nat (Some 2) (Some (3/2))) as [y0 [R0 [j0 [J0 ->]]]]; [lia|rewrite EX; reflexivity|rewrite EX; reflexivity|].
  destruct (G 1%nat (Some 0) None) as [y1 [R1 [j1 [J1 ->]]]]; [lia|rewrite EX; reflexivity|rewrite EX; reflexivity|].
  destruct (G 2%nat None (Some (-1))) as [y2 [R2 ->]]; [lia|rewrite EX; reflexivity|rewrite EX; reflexivity|].
  destruct j0 as [|[|j0]]; [|cbn in J0; injection J0 as J0; lra|destruct j0; discriminate].
  destruct j1 as [|[|j1]]; [cbn in J1; injection J1 as J1; lra| |destruct j1; discriminate].
  destruct T as [|t0 [|t1 [|t2 [|]]]]; try discriminate LT. cbn in R0, R1, R2. injection R0 as ->. injection R1 as ->. injection R2 as ->.
  reflexivity.
Qed.

(** Both columns in one view, the rows 0, 1, 2 in the clusters 1, 0, 2. *)
Definition bx_answer : Backends.answer := Answer [0; 0]%Z 2 [3] [[1; 0; 2]]%Z.
Lemma bx_answer_ok s : s_outs s = [4; 9]%Z -> answer_ok 3 s bx_answer /\ answer_onto bx_answer.
Proof.
  intros Eo. split.
  - split; [intros p [<-|[]]; reflexivity|]. split; [reflexivity|]. split; [rewrite Eo; reflexivity|]. split; [cbn; lra|].
    intros k [<-|[<-|[]]]; cbn; lia.
  - intros i Hi. cbn in Hi. assert (i = 0)%nat by lia. subst i. left. reflexivity.
Qed.

Example C60_take_ex : exists s s' v w, sreach safe s /\ dget 4%Z (s_zv s) <> dget 9%Z (s_zv s) /\
  lovecat_update (fun _ => ex_seed) s bx_answer = Ok s' /\ sinv 3 s' /\ able s' /\ typed 3 s' bx_cats bx_types /\ s_outs s' = [4; 9]%Z /\
  same_data s s' /\ dget 4%Z (s_zv s') = Some v /\ dget 9%Z (s_zv s') = Some v /\ dget v (s_views s') = Some w /\
  (forall v' w', dget v' (s_views s') = Some w' -> v' = v) /\
  v_rows w = [(0, 1); (1, 0); (2, 2)]%Z /\ c_alpha (v_crp w) = 3 /\ c_alpha (s_crp s') = 2.
Proof.
  destruct bx_two as [s [R [H [A [Ht [Eo [EX [Ei Ez]]]]]]]]. destruct (bx_answer_ok s Eo) as [AO AN].
  destruct (C60_take 3 (fun _ => ex_seed) s bx_answer H A AO) as [s' [E [AD [_ HO]]]]. destruct (HO AN) as [H' HA].
  pose proof (ad_data _ _ _ _ AD) as D. destruct D as [Do [DX [Dc Di]]].
  destruct (ad_view _ _ _ _ AD 0%nat 4%Z 0%nat [1; 0; 2]%Z 3) as [v [w [Ev [Ew [Aw [Kw Rw]]]]]]; [rewrite Eo; reflexivity|reflexivity|reflexivity|reflexivity|].
  destruct (ad_view _ _ _ _ AD 1%nat 9%Z 0%nat [1; 0; 2]%Z 3) as [v2 [w2 [Ev2 [Ew2 _]]]]; [rewrite Eo; reflexivity|reflexivity|reflexivity|reflexivity|].
  assert (E49 : dget 4%Z (s_zv s') = dget 9%Z (s_zv s')) by (apply (ad_cols _ _ _ _ AD 0%nat 1%nat); [rewrite Eo; reflexivity|rewrite Eo; reflexivity|reflexivity]).
  exists s, s', v, w. split; [exact R|]. split.
  { assert (E4 : dget 4%Z (s_zv s) = Some 0%Z) by (apply Ez; left; reflexivity). assert (E9 : dget 9%Z (s_zv s) = Some 1%Z) by (apply Ez; right; left; reflexivity).
    rewrite E4, E9. discriminate. }
  split; [exact E|]. split; [exact H'|]. split.
  { apply HA; [intros x [<-|[]]; lra|intros j; split; [discriminate|intros x [<-|[<-|[]]]; lra]|exact Ei]. }
  split; [apply bx_typed; [exact H'|congruence|congruence]|]. split; [congruence|]. split; [repeat split; assumption|].
  split; [exact Ev|]. split; [congruence|]. split; [exact Ew|]. split.
  { intros v' w' Hw'. pose proof (ad_count _ _ _ _ AD) as L. cbn in L. destruct (s_views s') as [|[q u] [|]]; try discriminate L.
    cbn [dget] in Hw', Ew. destruct (Z.eqb_spec v' q); [|discriminate]. destruct (Z.eqb_spec v q); [congruence|discriminate]. }
  split; [|split; [exact Aw|apply (ad_alpha _ _ _ _ AD)]].
  unfold dkeys in Kw. change (range (Z.of_nat 3)) with [0; 1; 2]%Z in Kw.
  pose proof (Rw 0%nat) as R0. pose proof (Rw 1%nat) as R1. pose proof (Rw 2%nat) as R2. clear - Kw R0 R1 R2.
  destruct (v_rows w) as [|[r0 k0] [|[r1 k1] [|[r2 k2] [|]]]]; try discriminate Kw. cbn in Kw. injection Kw as -> -> ->.
  specialize (R0 ltac:(lia)). specialize (R1 ltac:(lia)). specialize (R2 ltac:(lia)). cbn in R0, R1, R2.
  injection R0 as ->. injection R1 as ->. injection R2 as ->. reflexivity.
Qed.

Example C60_codes_ex : exists s, sinv 3 s /\ length bx_types = length (s_outs s) /\
  (forall i c t, nth_error (s_outs s) i = Some c -> nth_error bx_types i = Some t -> t <> TOther /\
     forall k, t = TCategorical k -> categories 3 s c k (bx_cats c)) /\
  nth_error (s_outs s) 0 = Some 4%Z /\ nth_error bx_types 0 = Some (TCategorical 3).
Proof.
  destruct bx_two as [s [_ [H [_ [[Lt Ht] [Eo _]]]]]]. exists s. split; [exact H|]. split; [exact Lt|]. split.
  - intros i c t Hi Hti. destruct (Ht i c t Hi Hti) as [P Q]. split; [exact P|]. intros k Ek. apply (Q k Ek).
  - rewrite Eo. split; reflexivity.
Qed.

(** The partitions that the state of [C60_take_ex] hands over are those that it took. *)
Example C60_partitions_ex : exists s M_c L, sinv 3 s /\ crosscat_M_c bx_cats bx_types s = Ok M_c /\
  crosscat_X_D s = Ok [[1; 0; 2]]%Z /\ crosscat_X_L s M_c [[1; 0; 2]]%Z = Ok L /\
  xl_assign L = [0; 0]%Z /\ xl_counts L = [2]%Z /\ xl_alpha L = 2.
Proof.
  destruct C60_take_ex as [_ [s [v [w [_ [_ [_ [H [A [Ht [Eo [_ [E4 [E9 [Ew [Ev [Rw [_ Ea]]]]]]]]]]]]]]]]]].
  destruct (typed_given 3 s bx_cats bx_types (Some 1%Z) None [] H) as [M_c [T [L [X_D [b [p [[E1 [_ [E3 [E2 _]]]] [_ [_ [_ HM]]]]]]]]]];
    [lia|exact Ht|left; discriminate|intros c []|].
  destruct (C60_partitions 3 s M_c H) as [X2 [L2 [E5 [E6 [La [[K [HK [NK [LK1 [LK2 [LK3 CK]]]]]] [Al [Hv Hs]]]]]]]]; [lia|exact HM|].
  assert (X2 = X_D) by congruence. subst X2. assert (L2 = L) by congruence. subst L2.
  destruct (Hv 0%nat 4%Z v w) as [j [part [vs [A0 [P0 [_ [RL [[Kp [_ [NP _]]] _]]]]]]]]; [rewrite Eo; reflexivity|exact E4|exact Ew|].
  assert (A1 : nth_error (xl_assign L) 0 = nth_error (xl_assign L) 1) by (apply (Hs 0%nat 1%nat 4%Z 9%Z); [rewrite Eo; reflexivity|rewrite Eo; reflexivity|congruence]).
  rewrite Eo in La. assert (EA : xl_assign L = [Z.of_nat j; Z.of_nat j]).
  { destruct (xl_assign L) as [|x [|y [|]]]; try discriminate La. cbn in A0, A1. injection A0 as ->. injection A1 as <-. reflexivity. }
  assert (j = 0%nat).
  { assert (In 0%Z (xl_assign L)) by (apply NK; lia). rewrite EA in H0. destruct H0 as [H0|[H0|[]]]; lia. }
  subst j. assert (HK1 : K = 1%nat).
  { destruct (Nat.eq_dec K 1) as [|Hk]; [assumption|]. assert (In 1%Z (xl_assign L)) by (apply NK; lia). rewrite EA in H0. destruct H0 as [H0|[H0|[]]]; lia. }
  rewrite HK1 in *. clear HK1. destruct X_D as [|part0 [|]]; try discriminate LK1. cbn [nth_error] in P0. assert (part0 = part) by congruence. subst part0.
  assert (EP : row_codes w = Ok [1; 0; 2]%Z) by (unfold row_codes; rewrite Rw; reflexivity).
  destruct (X_D_ok 3 s H) as [X2 [E7 F]]. assert (X2 = [part]) by congruence. subst X2.
  inversion F as [|v0 p0 vs0 ps0 [w0 [Ew0 Er0]] F' EU]; subst. assert (v0 = v) by (eapply Ev; exact Ew0). subst v0.
  assert (w0 = w) by congruence. subst w0. rewrite EP in Er0. injection Er0 as <-.
  exists s, M_c, L. split; [exact H|]. split; [exact E1|]. split; [exact E2|]. split; [exact E3|]. split; [exact EA|]. split; [|congruence].
  destruct (xl_counts L) as [|c0 [|]]; try discriminate LK3. specialize (CK 0%nat ltac:(lia)). cbn [nth_error] in CK. rewrite EA in CK.
  injection CK as ->. reflexivity.
Qed.

(** The state of [C60_take_ex] meets the hypotheses of the theorems about states whose rows
    are in order. *)
Example C60_rows_ex : exists s X_D, sinv 3 s /\ able s /\ typed 3 s bx_cats bx_types /\ crosscat_X_D s = Ok X_D /\
  forall v w, dget v (s_views s) = Some w -> in_order 3 w.
Proof.
  destruct C60_take_ex as [_ [s [v [w [_ [_ [_ [H [A [Ht [Eo [_ [_ [_ [Ew [Ev [Rw _]]]]]]]]]]]]]]]]].
  destruct (X_D_ok 3 s H) as [X [E _]]. exists s, X. split; [exact H|]. split; [exact A|]. split; [exact Ht|]. split; [exact E|].
  intros v' w' E'. assert (v' = v) by (eapply Ev; exact E'). subst v'. assert (w' = w) by congruence. subst w'.
  unfold in_order. rewrite Rw. reflexivity.
Qed.

(** lovecat runs on the state with two views and puts the columns in one. *)
Example C60_lovecat_ex : exists s s', sreach safe s /\ dget 4%Z (s_zv s) <> dget 9%Z (s_zv s) /\
  lovecat (fun _ _ _ _ _ _ => bx_answer) (fun _ => ex_seed) bx_cats bx_types (Some 5%Z) None [9]%Z s = Ok s' /\
  dget 4%Z (s_zv s') = dget 9%Z (s_zv s').
Proof.
  destruct bx_two as [s [R [H [A [Ht [Eo [EX [Ei Ez]]]]]]]]. destruct (bx_answer_ok s Eo) as [AO _].
  destruct (C60_lovecat 3 (fun _ _ _ _ _ _ => bx_answer) (fun _ => ex_seed) bx_cats bx_types (Some 5%Z) None [9]%Z s H A)
    as [s' [_ [_ [_ [_ [_ [_ [E [_ [AD _]]]]]]]]]].
  - lia.
  - exact Ht.
  - left. discriminate.
  - intros c [<-|[]]. rewrite Eo. right. left. reflexivity.
  - intros. exact AO.
  - exists s, s'. split; [exact R|]. split.
    { assert (E4 : dget 4%Z (s_zv s) = Some 0%Z) by (apply Ez; left; reflexivity). assert (E9 : dget 9%Z (s_zv s) = Some 1%Z) by (apply Ez; right; left; reflexivity).
      rewrite E4, E9. discriminate. }
    split; [exact E|]. apply (ad_cols _ _ _ _ AD 0%nat 1%nat); [rewrite Eo; reflexivity|rewrite Eo; reflexivity|reflexivity].
Qed.

(** A run without arguments fails on a state for which one with a number of steps returns. *)
Theorem C60_defaults_refuted : exists s engine seeds cats types s', sreach safe s /\ able s /\
  lovecat engine seeds cats types (Some 1%Z) None [] s = Ok s' /\ lovecat engine seeds cats types None None [] s = Err AssertionError.
Proof.
  destruct bx_two as [s [R [H [A [Ht [Eo _]]]]]]. destruct (bx_answer_ok s Eo) as [AO _].
  destruct (C60_lovecat 3 (fun _ _ _ _ _ _ => bx_answer) (fun _ => ex_seed) bx_cats bx_types (Some 1%Z) None [] s H A)
    as [s' [_ [_ [_ [_ [_ [_ [E _]]]]]]]].
  - lia.
  - exact Ht.
  - left. discriminate.
  - intros c [].
  - intros. exact AO.
  - exists s, (fun _ _ _ _ _ _ => bx_answer), (fun _ => ex_seed), bx_cats, bx_types, s'. split; [exact R|]. split; [exact A|].
    split; [exact E|]. apply (C60_defaults 3); assumption.
Qed.
Print Assumptions C60_defaults_refuted.

(** The last row with a value of a column of categories is removed: inference on the state
    never fails ([C59_kernel]), but lovecat does. *)
Theorem C60_missing_refuted : exists s s' types, sreach safe s /\ run_op s (OUnincorporate 2) = (s', Ok tt) /\ sreach safe s' /\ able s' /\
  n_rows s' = Ok 2%Z /\ (forall r, (0 <= r < 2)%Z -> tab (s_X s') 4%Z r = Ok None) /\
  nth_error types 0 = Some (TCategorical 3) /\ nth_error (s_outs s') 0 = Some 4%Z /\
  forall engine seeds N, lovecat engine seeds (fun _ => []) types (Some N) None [] s' = Err AssertionError.
Proof.
  destruct (bx_state [None; None; Some 2] [(4, 0); (9, 1)]%Z [] [0; 1]%Z) as [s [R [H [A [EX [Eo [Ec [Ei Ez]]]]]]]].
  - reflexivity.
  - intros x [<-|[<-|[<-|[]]]]; try exact I. exists 2%nat. split; [lia|cbn; lra].
  - repeat constructor; cbn; intuition discriminate.
  - intros c. reflexivity.
  - repeat constructor; cbn; intuition discriminate.
  - intros v. reflexivity.
  - left. reflexivity.
  - destruct (C59_operation s (OUnincorporate 2) R A) as [s' [E [R' A']]].
    { split; [rewrite (sinv_n_rows 3 s H); reflexivity|lia]. }
    destruct (state_uninc_ok 3 s 2%Z s' H E) as [m [Em [_ [Er [H' [Eo' [_ [_ [_ [_ [Et _]]]]]]]]]]]. assert (m = 2%nat) by lia. subst m.
    assert (M : forall r, (0 <= r < 2)%Z -> tab (s_X s') 4%Z r = Ok None).
    { intros r Hr. rewrite Et by exact Hr. rewrite EX. assert (D : (r = 0 \/ r = 1)%Z) by lia. destruct D as [-> | ->]; reflexivity. }
    exists s, s', bx_types. split; [exact R|]. split; [exact E|]. split; [exact R'|]. split; [exact A'|].
    split; [apply (sinv_n_rows 2 s' H')|]. split; [exact M|]. split; [reflexivity|]. split; [rewrite Eo', Eo; reflexivity|].
    intros engine seeds N. apply (C60_missing 2 engine seeds (fun _ => []) bx_types (Some N) None [] s' 0 4%Z 3); try assumption.
    + lia.
    + rewrite Eo', Eo. reflexivity.
    + intros i c t. rewrite Eo', Eo. intros Hi Ht.
      destruct i as [|[|i]]; cbn in Hi, Ht; [injection Hi as <-; injection Ht as <-|injection Hi as <-; injection Ht as <-|destruct i; discriminate];
        [|split; discriminate].
      split; [discriminate|]. intros k Ek. injection Ek as <-. split; [constructor|]. split.
      * intros v. split; [intros []|]. intros [r [Hr Er0]]. rewrite M in Er0 by lia. discriminate.
      * intros v [].
    + left. discriminate.
    + intros c [].
    + rewrite Eo', Eo. reflexivity.
    + reflexivity.
    + reflexivity.
Qed.
Print Assumptions C60_missing_refuted.

(** An answer with a row partition that no column uses passes every check of _update_state,
    and leaves a view without columns. *)
Theorem C60_unused_refuted : exists s a s' v, sreach safe s /\ able s /\ answer_ok 3 s a /\
  lovecat_update (fun _ => ex_seed) s a = Ok s' /\ In v (dkeys (s_views s')) /\ forall c, In c (s_outs s') -> dget c (s_zv s') <> Some v.
Proof.
  destruct bx_two as [s [R [H [A [Ht [Eo _]]]]]]. set (a := Answer [0; 0]%Z 2 [3; 3] [[1; 0; 2]; [0; 0; 0]]%Z).
  assert (AO : answer_ok 3 s a).
  { split; [intros p [<-|[<-|[]]]; reflexivity|]. split; [reflexivity|]. split; [rewrite Eo; reflexivity|]. split; [cbn; lra|].
    intros k [<-|[<-|[]]]; cbn; lia. }
  destruct (C60_take 3 (fun _ => ex_seed) s a H A AO) as [s' [E [AD _]]]. destruct (ad_numbers _ _ _ _ AD) as [off [_ [V Z0]]].
  exists s, a, s', (off + 1)%Z. split; [exact R|]. split; [exact A|]. split; [exact AO|]. split; [exact E|].
  split; [apply V; exists 1%nat; split; [cbn; lia|reflexivity]|]. destruct (ad_data _ _ _ _ AD) as [Do _]. rewrite Do, Eo.
  intros c [<-|[<-|[]]].
  - rewrite (Z0 0%nat 4%Z 0%Z); [intros Q; injection Q as Q; lia|rewrite Eo; reflexivity|reflexivity].
  - rewrite (Z0 1%nat 9%Z 0%Z); [intros Q; injection Q as Q; lia|rewrite Eo; reflexivity|reflexivity].
Qed.
Print Assumptions C60_unused_refuted.

(** Two kinds: feature 0 is column 9, feature 1 is column 4; the rows come in any order. *)
Definition bx_sample : sample := Sample [[1]; [0]]%Z [9; 4]%Z [(2, [0; 1]); (0, [0; 0]); (1, [3; 0])]%Z.
Lemma bx_proper : proper 3 [4; 9]%Z bx_sample.
Proof.
  constructor; cbn.
  - repeat constructor; cbn; intuition discriminate.
  - intros f. lia.
  - intros kind [<-|[<-|[]]]; discriminate.
  - repeat constructor; cbn; intuition discriminate.
  - intros o. lia.
  - repeat constructor; cbn; intuition discriminate.
  - intros r. lia.
  - intros r g [E|[E|[E|[]]]]; injection E as <- <-; reflexivity.
Qed.

Example C60_loom_ex : exists s s' v w, sreach safe s /\ able s /\ loom_update (fun _ => ex_seed) s bx_sample = Ok s' /\
  dget 4%Z (s_zv s') <> dget 9%Z (s_zv s') /\ dget 4%Z (s_zv s') = Some v /\ dget v (s_views s') = Some w /\
  dget 0%Z (v_rows w) = Some 0%Z /\ dget 1%Z (v_rows w) = Some 3%Z /\ dget 2%Z (v_rows w) = Some 0%Z.
Proof.
  destruct C60_take_ex as [_ [s [v0 [w0 [_ [_ [_ [H [A [Ht [Eo [_ [E4 [E9 _]]]]]]]]]]]]]].
  destruct bx_two as [t [R [HT [AT [_ [EoT _]]]]]].
  assert (P : proper 3 (s_outs t) bx_sample) by (rewrite EoT; apply bx_proper).
  destruct (C60_loom 3 (fun _ => ex_seed) t bx_sample HT AT P) as [s' [E [LO _]]].
  assert (K4 : in_kind bx_sample 4 0) by (exists 1%nat, [1%Z]; cbn; auto).
  assert (K9 : in_kind bx_sample 9 1) by (exists 0%nat, [0%Z]; cbn; auto).
  destruct (lo_rows _ _ _ _ LO 4%Z 0%nat K4) as [v [w [Ev [Ew [_ Rw]]]]].
  exists t, s', v, w. split; [exact R|]. split; [exact AT|]. split; [exact E|]. split.
  - intros Q. apply (lo_cols _ _ _ _ LO 4%Z 9%Z 0%nat 1%nat K4 K9) in Q. discriminate Q.
  - split; [exact Ev|]. split; [exact Ew|]. split; [|split]; apply Rw; try lia.
    + exists [0; 0]%Z. cbn. auto.
    + exists [3; 0]%Z. cbn. auto.
    + exists [0; 1]%Z. cbn. auto.
Qed.

(** loom knows nothing of the independence constraints: a valid sample takes a state for
    which they hold to one for which they do not. *)
Theorem C60_constraints_refuted : exists s x s', sreach safe s /\ able s /\ s_Ci s = [[4; 9]]%Z /\ proper 3 (s_outs s) x /\
  dget 4%Z (s_zv s) <> dget 9%Z (s_zv s) /\ loom_update (fun _ => ex_seed) s x = Ok s' /\ s_Ci s' = [[4; 9]]%Z /\
  dget 4%Z (s_zv s') = dget 9%Z (s_zv s').
Proof.
  destruct (bx_state bx_l4 [(4, 0); (9, 1)]%Z [[4; 9]]%Z [0; 1]%Z) as [s [R [H [A [EX [Eo [Ec [Ei Ez]]]]]]]].
  - reflexivity.
  - exact bx_l4_ok.
  - repeat constructor; cbn; intuition discriminate.
  - intros c. reflexivity.
  - repeat constructor; cbn; intuition discriminate.
  - intros v. reflexivity.
  - right. split; [repeat constructor; cbn; lia|]. split.
    + intros p x y v [<-|[]] Hx Hy Hne H1 H2. cbn in H1, H2. destruct H1 as [H1|[H1|[]]]; destruct H2 as [H2|[H2|[]]]; congruence.
    + intros p c [<-|[]] Hc. exact Hc.
  - set (x := Sample [[0; 1]]%Z [4; 9]%Z [(0, [0]); (1, [0]); (2, [1])]%Z).
    assert (P : proper 3 (s_outs s) x).
    { rewrite Eo. constructor; cbn.
      - repeat constructor; cbn; intuition discriminate.
      - intros f. lia.
      - intros kind [<-|[]]; discriminate.
      - repeat constructor; cbn; intuition discriminate.
      - intros o. lia.
      - repeat constructor; cbn; intuition discriminate.
      - intros r. lia.
      - intros r g [E|[E|[E|[]]]]; injection E as <- <-; reflexivity. }
    destruct (C60_loom 3 (fun _ => ex_seed) s x H A P) as [s' [E [LO _]]].
    exists s, x, s'. split; [exact R|]. split; [exact A|]. split; [exact Ei|]. split; [exact P|]. split.
    { assert (E4 : dget 4%Z (s_zv s) = Some 0%Z) by (apply Ez; left; reflexivity). assert (E9 : dget 9%Z (s_zv s) = Some 1%Z) by (apply Ez; right; left; reflexivity).
      rewrite E4, E9. discriminate. }
    split; [exact E|]. destruct (lo_data _ _ _ _ LO) as [_ [_ [_ Di]]]. split; [congruence|].
    apply (lo_cols _ _ _ _ LO 4%Z 9%Z 0%nat 0%nat); [exists 0%nat, [0; 1]%Z; cbn; auto|exists 1%nat, [0; 1]%Z; cbn; auto|reflexivity].
Qed.
Print Assumptions C60_constraints_refuted.

(* ------------------------------------------------------------------ *)
(** ** Rows out of order *)

Lemma log_pflip_first {A} l (array : list A) a array' : l <> [] -> Forall (fun x => exists r, x = Fin r) l -> array = a :: array' ->
  length array = length l -> log_pflip first_pos l array = Ok a.
Proof.
  intros Hne Hf -> HL. assert (Hl : Forall logw l) by (eapply Forall_impl; [|exact Hf]; intros x [r ->]; exact I).
  assert (Hp : 0 < Rsum (map lexp l)).
  { destruct l as [|x l]; [congruence|]. inversion Hf as [|? ? [r ->] _]; subst. simpl.
    assert (0 <= Rsum (map lexp l)) by (clear; induction l as [|y l IH]; simpl; [lra|]; pose proof (lexp_nonneg y); lra).
    pose proof (exp_pos r). lra. }
  destruct (log_pflip_spec first_pos l (a :: array') C16_draw_ex Hl Hp HL) as [i [b [y [E _]]]].
  rewrite E. destruct (log_pflip_weights l Hl Hp) as [out [En Hw]]. unfold log_pflip in E. rewrite En in E. cbn [rbind] in E.
  destruct l as [|x l]; [congruence|]. inversion Hf as [|? ? [r ->] _]; subst.
  pose proof (normalize_weights _ _ Hw) as Nw. cbn [map] in Nw.
  assert (Hpos : 0 < lexp (Fin r) / Rsum (map lexp (Fin r :: l)) / Rsum (map (fun x => lexp x / Rsum (map lexp (Fin r :: l))) (Fin r :: l))).
  { apply Rdiv_lt_0_compat; [apply Rdiv_lt_0_compat; [apply exp_pos|exact Hp]|]. apply Hw. }
  unfold pflip in E. destruct Hw as [Hm _]. destruct (map eexp out) as [|e0 [|e1 es]]; [discriminate Hm|congruence|].
  unfold choice in E. rewrite Nw in E. destruct (Nat.eqb _ _ && _) in E; [|discriminate]. cbn [first_pos] in E.
  assert (Ep : eltb (Fin 0) (Fin (lexp (Fin r) / Rsum (map lexp (Fin r :: l)) / Rsum (map (fun x => lexp x / Rsum (map lexp (Fin r :: l))) (Fin r :: l)))) = true)
    by (cbn [eltb]; apply Rltb_true; exact Hpos).
  cbn [map] in Ep. rewrite Ep in E. cbn [nth_error] in E. congruence.
Qed.

(** With this generator a row moves to the first cluster. *)
Lemma row_first X v r z k ks : vinv X v -> (forall c a, dget c (v_dims v) = Some a -> atotal a) -> 0 < c_alpha (v_crp v) ->
  dget r (v_rows v) = Some z -> zsort (dkeys (c_counts (v_crp v))) = k :: ks -> z <> k ->
  exists v', transition_row X first_pos v r = (v', Ok tt) /\ v_rows v' = dset r k (ddel r (v_rows v)).
Proof.
  intros Hv Ht Ha Hr Hk Hz. destruct (transition_total X first_pos v r z C16_draw_ex Hv Ht Ha Hr) as [v' E]. exists v'. split; [exact E|].
  revert E. unfold transition_row. destruct (row_weights_total X v r z Hv Ha Hr Ht) as [v1 [K [w [Ew _]]]]. rewrite Ew.
  destruct (view_score_total X lgam_w v Hv Ha Ht) as [s Hs].
  destruct (row_weights_exact X lgam_w v r z v1 K w s lgam_w_rec lgam_w_1 Hv (fun c a E => proj1 (Ht c a E)) Ha Hr Hs Ew) as [C F].
  destruct (row_weights_ok _ _ _ _ _ _ Hv Ew) as [V1 [C1 [_ [_ [_ EK]]]]].
  destruct (tables_shape _ _ _ _ EK) as [aux [EKs _]]. rewrite Hk in EKs. cbn [app] in EKs.
  assert (Hl : length K = length w) by (clear - F; induction F; simpl; congruence).
  rewrite (log_pflip_first w K k (ks ++ aux)).
  - assert (R1 : dget r (v_rows v1) = Some z) by (unfold v_rows; rewrite C1; exact Hr). rewrite R1.
    destruct (Z.eqb_spec z k); [congruence|]. intros E. destruct (view_migrate_ok _ _ _ _ _ V1 E) as [_ [Rr _]]. rewrite Rr.
    unfold v_rows. rewrite C1. reflexivity.
  - intros ->. rewrite EKs in Hl. discriminate Hl.
  - clear - F. induction F as [|k wk K w [v' [S' [_ [_ ->]]]] _ IH]; constructor; [eauto|exact IH].
  - exact EKs.
  - exact Hl.
Qed.

(** After the row kernel has moved a row, a sampler that returns what it is given changes
    the partition: rows 0 and 1, in one cluster before, are in two after. *)
Theorem C60_roundtrip_refuted : exists s k s' s'' v w v' w', sinv 3 s /\ able s /\ typed 3 s bx_cats bx_types /\
  (forall v w, dget v (s_views s) = Some w -> in_order 3 w) /\
  run_kernel s k = (s', Ok tt) /\ sinv 3 s' /\ able s' /\ typed 3 s' bx_cats bx_types /\
  lovecat echo (fun _ => ex_seed) bx_cats bx_types (Some 1%Z) None [] s' = Ok s'' /\
  dget 4%Z (s_zv s') = Some v /\ dget v (s_views s') = Some w /\ dget 0%Z (v_rows w) = dget 1%Z (v_rows w) /\
  dget 4%Z (s_zv s'') = Some v' /\ dget v' (s_views s'') = Some w' /\ dget 0%Z (v_rows w') <> dget 1%Z (v_rows w').
Proof.
  destruct C60_take_ex as [_ [s [v [w [_ [_ [_ [H [A [Ht [Eo [_ [E4 [E9 [Ew [Ev [Rw _]]]]]]]]]]]]]]]]].
  destruct (si_view _ _ H v w Ew) as [V _]. destruct (ab_view _ A v w Ew) as [Wa [_ W]].
  assert (Hk : zsort (dkeys (c_counts (v_crp w))) = [0; 1; 2]%Z).
  { destruct V as [[Nd [[Nc Oc] Nn]] _]. assert (CI : crp_inv (v_crp w)) by (split; [exact Nd|]; split; [split; assumption|exact Nn]).
    change [0; 1; 2]%Z with (range 3). apply zsort_range; [exact Nc|]. intros j. split.
    - intros Hj. destruct (crp_counts_rows (v_crp w) j CI Hj) as [r Hr]. change (dget r (v_rows w) = Some j) in Hr. rewrite Rw in Hr. cbn [dget] in Hr.
      destruct (r =? 0)%Z; [injection Hr as <-; lia|]. destruct (r =? 1)%Z; [injection Hr as <-; lia|].
      destruct (r =? 2)%Z; [injection Hr as <-; lia|discriminate].
    - intros Hj. assert (D : exists r, dget r (v_rows w) = Some j).
      { rewrite Rw. assert (D : (j = 0 \/ j = 1 \/ j = 2)%Z) by lia. destruct D as [-> |[-> | ->]]; [exists 1%Z|exists 0%Z|exists 2%Z]; reflexivity. }
      destruct D as [r Hr]. exact (crp_rows_counts (v_crp w) r j CI Hr). }
  assert (Hs : all_solid w) by (apply eager_all_solid; [exact W|apply V]).
  destruct (row_first (tab (s_X s)) w 0%Z 1%Z 0%Z [1; 2]%Z V) as [w1 [E1 R1]].
  { intros c a Hc. apply (solid_all w c a Hs Hc). }
  { exact Wa. }
  { rewrite Rw. reflexivity. }
  { exact Hk. }
  { discriminate. }
  rewrite Rw in R1. change (dset 0%Z 0%Z (ddel 0%Z [(0, 1); (1, 0); (2, 2)]%Z)) with [(1, 0); (2, 2); (0, 0)]%Z in R1.
  set (k := KRows (fun _ _ => first_pos) [v] (fun _ => [0]%Z)).
  destruct (kernel_total 3 s k H A) as [s' [Ek [A' [H' [D' _]]]]].
  { split; [intros i j; apply C16_draw_ex|]. split; [intros v' [<-|[]]; eapply dget_Some_in; exact Ew|].
    intros v' r _ [<-|[]]. exists 3%Z. split; [rewrite (sinv_n_rows 3 s H); reflexivity|lia]. }
  assert (Es : s' = set_views s (dset v w1 (s_views s))).
  { cbn [k run_kernel] in Ek. rewrite (sinv_n_rows 3 s H) in Ek. change (Z.of_nat 3 =? 1)%Z with false in Ek. cbn [views_loop] in Ek. rewrite Ew in Ek.
    cbn [transition_rows] in Ek. rewrite E1 in Ek. congruence. }
  assert (Z' : s_zv s' = s_zv s) by (rewrite Es; reflexivity).
  assert (Ew1 : dget v (s_views s') = Some w1) by (rewrite Es; cbn [set_views s_views]; rewrite dget_dset, Z.eqb_refl; reflexivity).
  destruct D' as [Do [Dx [Dc Di]]].
  assert (Ht' : typed 3 s' bx_cats bx_types).
  { destruct Ht as [T1 T2]. split; [rewrite Do; exact T1|]. rewrite Do. intros i c t Hi Hti. destruct (T2 i c t Hi Hti) as [P Q].
    split; [exact P|]. intros k0 Ek0. destruct (Q k0 Ek0) as [[Q1 [Q2 Q3]] Q4]. split; [|exact Q4]. split; [exact Q1|]. split; [rewrite Dx; exact Q2|exact Q3]. }
  assert (G0 : forall M_c T L X_D b p, given s' bx_cats bx_types (Some 1%Z) None [] M_c T L X_D b p ->
    answer_ok 3 s' (echo M_c T L X_D b p) /\ exists j part, nth_error (xl_assign L) 0 = Some (Z.of_nat j) /\ nth_error X_D j = Some part /\
      nth_error (map vt_alpha (xl_views L)) j = Some (c_alpha (v_crp w1)) /\ relabels [0; 2; 0]%Z part).
  { intros M_c T L X_D b p G. destruct (echo_ok 3 s' bx_cats bx_types (Some 1%Z) None [] M_c T L X_D b p H' A') as [AO [_ [PV _]]];
      [lia|exact Ht'|left; discriminate|intros c []|exact G|]. split; [exact AO|].
    destruct (PV 0%nat 4%Z v w1) as [j [part [P1 [P2 [P3 P4]]]]]; [rewrite Do, Eo; reflexivity|rewrite Z'; exact E4|exact Ew1|].
    exists j, part. rewrite R1 in P4. auto. }
  destruct (C60_lovecat 3 echo (fun _ => ex_seed) bx_cats bx_types (Some 1%Z) None [] s' H' A') as [s'' [M_c [T [L [X_D [b [p [E [G [AD _]]]]]]]]]].
  { lia. }
  { exact Ht'. }
  { left. discriminate. }
  { intros c []. }
  { intros M_c T L X_D b p G. apply (G0 M_c T L X_D b p G). }
  destruct (G0 M_c T L X_D b p G) as [_ [j [part [P1 [P2 [P3 [P4 P5]]]]]]].
  destruct (ad_view _ _ _ _ AD 0%nat 4%Z j part (c_alpha (v_crp w1))) as [v' [w' [Ev' [Ew' [_ [_ Rw']]]]]];
    [rewrite Do, Eo; reflexivity|exact P1|exact P2|exact P3|].
  exists s, k, s', s'', v, w1, v', w'. split; [exact H|]. split; [exact A|]. split; [exact Ht|]. split.
  { intros v0 w0 E0. assert (v0 = v) by (eapply Ev; exact E0). subst v0. assert (w0 = w) by congruence. subst w0. unfold in_order. rewrite Rw. reflexivity. }
  split; [exact Ek|]. split; [exact H'|]. split; [exact A'|]. split; [exact Ht'|]. split; [exact E|]. split; [rewrite Z'; exact E4|].
  split; [exact Ew1|]. split; [rewrite R1; reflexivity|]. split; [exact Ev'|]. split; [exact Ew'|].
  pose proof (Rw' 0%nat ltac:(lia)) as W0. pose proof (Rw' 1%nat ltac:(lia)) as W1. cbn [Z.of_nat Pos.of_succ_nat] in W0, W1. rewrite W0, W1.
  intros Q. apply (P5 0%nat 1%nat) in Q; [|cbn; lia|cbn; lia]. discriminate Q.
Qed.
Print Assumptions C60_roundtrip_refuted.
