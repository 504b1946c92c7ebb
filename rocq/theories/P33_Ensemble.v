(** Property C57: combining the states of an engine by likelihood weight. *)
From Verif Require Import Ensemble BaseFacts ListFacts PrimFacts LogSpaceFacts P02_LogSpace P17_Parallel P19_Engine.
From Coq Require Import List Arith ZArith Reals Bool Lia Lra Permutation.
Import ListNotations.
Local Open Scope R_scope.

(* ------------------------------------------------------------------ *)
(** ** Specification *)

(** The weights of the selected states: [logpdf] of the constraints does not change them and
    answers each with a log weight. *)
Definition weighed {St} (op : St -> St * res ext) (l : list St) (ps : list nat) (w : list R) : Prop :=
  (forall s, In s l -> fst (op s) = s) /\
  Forall2 (fun p x => exists s v, nth_error l p = Some s /\ snd (op s) = Ok v /\ weight_of v x) ps w.
(** What rng.choice without replacement returns. *)
Definition subset_ok (subset : nat -> nat -> nat -> list nat) : Prop := forall j N n, (n <= N)%nat ->
  length (subset j N n) = n /\ NoDup (subset j N n) /\ forall i, In i (subset j N n) -> (i < N)%nat.

(* ------------------------------------------------------------------ *)
(** ** The weights *)

Lemma weights_found {St} m (op : St -> St * res ext) e l statenos ps w : shows e l -> selects (length l) statenos ps -> weighed op l ps w ->
  exists e' ws, evaluate m op statenos e = (e', Ok ws) /\ shows e' l /\ Forall2 weight_of ws w.
Proof.
  intros H Hs [Hro Hw]. destruct (C40_evaluate m op e l statenos ps H Hs Hro) as [e' [r [E [H' R]]]]. exists e'.
  destruct r as [ws|x].
  - exists ws. split; [exact E|]. split; [exact H'|]. destruct R as [L R].
    assert (G : forall i p, nth_error ps i = Some p -> exists a x, nth_error ws i = Some a /\ nth_error w i = Some x /\ weight_of a x).
    { intros i p Hi. assert (X : exists x, nth_error w i = Some x /\ exists s v, nth_error l p = Some s /\ snd (op s) = Ok v /\ weight_of v x).
      { clear - Hw Hi. revert i Hi. induction Hw as [|q y ps w Hq _ IH]; intros i Hi; [destruct i; discriminate|].
        destruct i as [|i]; [injection Hi as <-; exists y; auto|]. apply IH. exact Hi. }
      destruct X as [x [Ex [s [v [Es [Ev Wv]]]]]]. destruct (R i p s Hi Es) as [a [Ea Ea']]. exists a, x. split; [exact Ea|]. split; [exact Ex|]. congruence. }
    assert (Lw : length ps = length w) by (clear - Hw; induction Hw; cbn; auto).
    clear - G L Lw. revert ws w L Lw G. induction ps as [|p ps IH]; intros [|a ws] [|x w] L Lw G; cbn in *; try discriminate; constructor.
    + destruct (G 0%nat p eq_refl) as [a' [x' [E1 [E2 W]]]]. injection E1 as <-. injection E2 as <-. exact W.
    + apply IH; try lia. intros i q Hq. exact (G (S i) q Hq).
  - exfalso. destruct R as [p [s [y [Hp [Es [Ey _]]]]]]. clear - Hw Hp Es Ey. induction Hw as [|q x ps w [s' [v [E1 [E2 _]]]] _ IH]; [destruct Hp|].
    destruct Hp as [->|Hp]; [|exact (IH Hp)]. rewrite Es in E1. injection E1 as <-. congruence.
Qed.

Lemma asserted_ok {St B} (given : list B) statenos (e : engine St) l ps : shows e l ->
  selects (length l) (listed statenos) ps -> statenos <> Some [] -> length given = length ps -> asserted given statenos e = true.
Proof.
  intros H Hs Hne L. unfold asserted. destruct statenos as [[|n ns]|].
  - congruence.
  - reflexivity.
  - cbn in Hs. destruct Hs as [[_ ->]|[F _]]; [|congruence]. apply Nat.eqb_eq. rewrite seq_length in L.
    unfold num_states. rewrite (shows_length _ _ H). exact L.
Qed.

(** The densities are averaged with the weights of the constraints. *)
Theorem C57_integrate : forall St logpdf m (e : engine St) l statenos ps logpdfs a rowid constraints w,
  shows e l -> selects (length l) (listed statenos) ps -> statenos <> Some [] -> constraints <> [] ->
  weighed (fun s => logpdf s rowid constraints [] []) l ps w -> 0 < Rsum w ->
  length logpdfs = length ps -> Forall2 weight_of logpdfs a ->
  exists e' v, lw_integrate logpdf m logpdfs rowid constraints [] statenos e = (e', Ok v) /\ shows e' l /\
    weight_of v (Rsum (map (fun wa => fst wa * snd wa) (combine w a)) / Rsum w).
Proof.
  intros St logpdf m e l statenos ps logpdfs a rowid constraints w H Hs Hne Hc Hw Hp L Ha.
  destruct (weights_found m _ e l _ ps w H Hs Hw) as [e' [ws [E [H' W]]]].
  assert (Lw : length ws = length logpdfs).
  { destruct Hw as [_ Hw]. apply Forall2_length in W. apply Forall2_length in Hw. lia. }
  destruct (C15_logmeanexp_weighted logpdfs ws a w Ha W Lw Hp) as [v [Ev Wv]].
  exists e', v. unfold lw_integrate. rewrite (asserted_ok logpdfs statenos e l ps H Hs Hne L). destruct constraints as [|c0 cs]; [congruence|].
  unfold state_weights. rewrite E. cbn [rbind]. rewrite Ev. auto.
Qed.
Print Assumptions C57_integrate.

(** Without constraints, with equal weights. *)
Theorem C57_integrate_mean : forall St logpdf m (e : engine St) l statenos ps logpdfs a rowid inputs,
  shows e l -> selects (length l) (listed statenos) ps -> statenos <> Some [] -> length logpdfs = length ps -> logpdfs <> [] ->
  Forall2 weight_of logpdfs a ->
  exists v, lw_integrate logpdf m logpdfs rowid [] inputs statenos e = (e, Ok v) /\ weight_of v (Rsum a / INR (length a)).
Proof.
  intros St logpdf m e l statenos ps logpdfs a rowid inputs H Hs Hne L Hl Ha.
  destruct (C15_logmeanexp logpdfs a Hl Ha) as [v [Ev Wv]]. exists v. unfold lw_integrate.
  rewrite (asserted_ok logpdfs statenos e l ps H Hs Hne L), Ev. auto.
Qed.
Print Assumptions C57_integrate_mean.

(* ------------------------------------------------------------------ *)
(** ** Resampling *)

Lemma count_cons i x l : count i (x :: l) = ((if Nat.eqb i x then 1 else 0) + count i l)%nat.
Proof. unfold count. cbn [filter]. destruct (Nat.eqb i x); reflexivity. Qed.
Lemma count_app i l m : count i (l ++ m) = (count i l + count i m)%nat.
Proof. unfold count. rewrite filter_app, app_length. reflexivity. Qed.
Lemma count_out i l : (forall x, In x l -> x <> i) -> count i l = 0%nat.
Proof.
  induction l as [|x l IH]; intros H; [reflexivity|]. rewrite count_cons. rewrite IH by (intros y Hy; apply H; right; exact Hy).
  destruct (Nat.eqb_spec i x) as [->|_]; [exfalso; apply (H x (or_introl eq_refl) eq_refl)|reflexivity].
Qed.
Lemma count_sum l n : (forall x, In x l -> (x < n)%nat) -> list_sum (map (fun i => count i l) (seq 0 n)) = length l.
Proof.
  induction l as [|x l IH]; intros H.
  - clear. generalize 0%nat. induction n as [|n IH]; intros k; cbn; [reflexivity|]. apply IH.
  - assert (E : forall k m, list_sum (map (fun i => count i (x :: l)) (seq k m)) =
      ((if (k <=? x) && (x <? k + m) then 1 else 0) + list_sum (map (fun i => count i l) (seq k m)))%nat).
    { clear. intros k m. revert k. induction m as [|m IH]; intros k.
      - cbn [seq map]. destruct (Nat.leb_spec k x), (Nat.ltb_spec x (k + 0)); cbn; lia.
      - cbn [seq map list_sum fold_right]. change (fold_right Nat.add 0%nat) with list_sum. rewrite IH, count_cons.
        destruct (Nat.eqb_spec k x), (Nat.leb_spec k x), (Nat.leb_spec (S k) x), (Nat.ltb_spec x (k + S m)), (Nat.ltb_spec x (S k + m)); cbn [andb]; lia. }
    rewrite E, IH by (intros y Hy; apply H; right; exact Hy). specialize (H x (or_introl eq_refl)).
    destruct (Nat.leb_spec 0 x), (Nat.ltb_spec x (0 + n)); cbn [andb length]; lia.
Qed.
Lemma list_max_le l x : In x l -> (x <= list_max l)%nat.
Proof. intros H. pose proof (proj1 (list_max_le l (list_max l)) (le_n _)) as F. rewrite Forall_forall in F. auto. Qed.
Lemma nth_error_from0 n i : (i < n)%nat -> nth_error (seq 0 n) i = Some i.
Proof. intros H. rewrite (nth_error_nth' _ 0%nat) by (rewrite seq_length; exact H). rewrite seq_nth by exact H. reflexivity. Qed.
Lemma bincount_count l i : (i < length (bincount l))%nat -> nth_error (bincount l) i = Some (count i l).
Proof.
  unfold bincount. destruct l as [|x l]; [cbn; lia|]. set (L := x :: l). rewrite map_length, seq_length. intros H.
  rewrite nth_error_map, nth_error_from0 by exact H. reflexivity.
Qed.
Lemma bincount_length l n : (forall x, In x l -> (x < n)%nat) -> (length (bincount l) <= n)%nat.
Proof.
  unfold bincount. destruct l as [|x l]; intros H; [cbn; lia|]. rewrite map_length, seq_length.
  assert (G : (list_max (x :: l) < n)%nat); [|lia]. apply list_max_lt; [discriminate|]. apply Forall_forall. exact H.
Qed.
Lemma bincount_out l i : (length (bincount l) <= i)%nat -> count i l = 0%nat.
Proof.
  intros H. apply count_out. intros x Hx ->. unfold bincount in H. destruct l as [|y l]; [destruct Hx|].
  rewrite map_length, seq_length in H. pose proof (list_max_le _ _ Hx). lia.
Qed.
Lemma count_le i l : (count i l <= length l)%nat.
Proof. unfold count. induction l as [|x l IH]; cbn; [lia|]. destruct (Nat.eqb i x); cbn; lia. Qed.

Lemma perm_counts l m : (forall i, count i l = count i m) -> Permutation l m.
Proof.
  intros H. apply (Permutation_count_occ Nat.eq_dec). intros x.
  assert (E : forall l, count_occ Nat.eq_dec l x = count x l).
  { clear. induction l as [|y l IH]; [reflexivity|]. rewrite count_cons. cbn. destruct (Nat.eq_dec y x) as [->|N].
    - rewrite Nat.eqb_refl, IH. reflexivity.
    - destruct (Nat.eqb_spec x y); [congruence|]. exact IH. }
  rewrite !E. apply H.
Qed.

Lemma perm_count l m i : Permutation l m -> count i l = count i m.
Proof. induction 1; [reflexivity|rewrite !count_cons; lia|rewrite !count_cons; lia|lia]. Qed.
Lemma nodup_join {A} (l m : list A) : NoDup l -> NoDup m -> (forall a, In a l -> ~ In a m) -> NoDup (l ++ m).
Proof.
  induction l as [|a l IH]; intros Hl Hm H; [exact Hm|]. apply NoDup_cons_iff in Hl. destruct Hl as [N1 N2]. cbn. constructor.
  - intros Hin. apply in_app_or in Hin. destruct Hin as [Hin|Hin]; [contradiction|]. apply (H a (or_introl eq_refl) Hin).
  - apply IH; [exact N2|exact Hm|]. intros b Hb. apply H. right. exact Hb.
Qed.

(** The samples picked for given draws of states: as many of each state as draws, from
    different positions. *)
Lemma picked_spec {B} subset (samples : list (list B)) N flips : subset_ok subset ->
  (forall s, In s samples -> length s = N) -> length flips = N -> (forall x, In x flips -> (x < length samples)%nat) ->
  exists out pos, picked samples (map (fun jn => subset (fst jn) N (snd jn)) (combine (seq 0 (length (bincount flips))) (bincount flips))) = Ok out /\
    NoDup pos /\ Permutation (map fst pos) flips /\
    Forall2 (fun ij a => exists s, nth_error samples (fst ij) = Some s /\ nth_error s (snd ij) = Some a) pos out.
Proof.
  intros Hsub HN Lf Hf. set (n := length (bincount flips)).
  assert (Hn : (n <= length samples)%nat) by (apply bincount_length; exact Hf).
  set (f := fun si : list B * list nat => rsequence (map (fun i => match nth_error (fst si) i with Some a => Ok a | None => Err IndexError end) (snd si))).
  (* the positions of state k *)
  set (ix := fun k => subset k N (count k flips)).
  assert (Hix : forall k, length (ix k) = count k flips /\ NoDup (ix k) /\ forall i, In i (ix k) -> (i < N)%nat).
  { intros k. apply Hsub. rewrite <- Lf. apply count_le. }
  assert (Ei : map (fun jn => subset (fst jn) N (snd jn)) (combine (seq 0 n) (bincount flips)) = map ix (seq 0 n)).
  { assert (G : forall m c k, length c = m -> (forall i, (i < m)%nat -> nth_error c i = Some (count (k + i) flips)) ->
      map (fun jn => subset (fst jn) N (snd jn)) (combine (seq k m) c) = map ix (seq k m)).
    { clear. induction m as [|m IH]; intros [|a c] k L H; cbn in L; try discriminate; [reflexivity|]. cbn [seq combine map fst snd]. f_equal.
      - specialize (H 0%nat ltac:(lia)). cbn in H. rewrite Nat.add_0_r in H. injection H as ->. reflexivity.
      - apply IH; [lia|]. intros i Hi. specialize (H (S i) ltac:(lia)). cbn in H. rewrite H. do 2 f_equal. lia. }
    apply (G n (bincount flips) 0%nat); [reflexivity|]. intros i Hi. apply bincount_count. exact Hi. }
  rewrite Ei. unfold picked. fold f.
  assert (G : forall m k ss, (forall i, (i < m)%nat -> exists s, nth_error ss i = Some s /\ length s = N) ->
    exists outs pos, rsequence (map f (combine ss (map ix (seq k m)))) = Ok outs /\ NoDup pos /\
      (forall i, count i (map fst pos) = if (k <=? i) && (i <? k + m) then count i flips else 0%nat) /\
      (forall ij, In ij pos -> (k <= fst ij)%nat) /\
      Forall2 (fun ij a => exists s, nth_error ss (fst ij - k) = Some s /\ nth_error s (snd ij) = Some a) pos (concat outs)).
  { induction m as [|m IH]; intros k ss Hss.
    - exists [], []. cbn [seq map]. rewrite combine_nil. split; [reflexivity|]. split; [constructor|]. split.
      + intros i. destruct (Nat.leb_spec k i), (Nat.ltb_spec i (k + 0)); cbn; lia.
      + split; [intros ij []|constructor].
    - destruct (Hss 0%nat ltac:(lia)) as [s [Es Ls]]. destruct ss as [|s' ss]; [discriminate|]. injection Es as ->.
      destruct (IH (S k) ss) as [outs [pos [E [Nd [Hc [Hk F]]]]]]. { intros i Hi. exact (Hss (S i) ltac:(lia)). }
      destruct (Hix k) as [Lk [Nk Bk]].
      assert (P : exists o, f (s, ix k) = Ok o /\ Forall2 (fun i a => nth_error s i = Some a) (ix k) o).
      { unfold f. cbn [fst snd]. clear - Bk Ls. induction (ix k) as [|i l IH]; [exists []; split; [reflexivity|constructor]|].
        destruct IH as [o [Eo Fo]]; [intros j Hj; apply Bk; right; exact Hj|].
        destruct (nth_error s i) as [a|] eqn:Ea; [|apply nth_error_None in Ea; specialize (Bk i (or_introl eq_refl)); lia].
        exists (a :: o). cbn [map rsequence]. rewrite Ea, Eo. split; [reflexivity|constructor; assumption]. }
      destruct P as [o [Eo Fo]]. exists (o :: outs), (map (pair k) (ix k) ++ pos).
      split. { cbn [seq map combine rsequence]. rewrite Eo, E. reflexivity. }
      split.
      { apply nodup_join; [apply FinFun.Injective_map_NoDup; [intros a b X; injection X; auto|exact Nk]|exact Nd|].
        intros x Hx Hx'. apply in_map_iff in Hx. destruct Hx as [i [<- _]]. specialize (Hk _ Hx'). cbn in Hk. lia. }
      split.
      { intros i. rewrite map_app, count_app, Hc. rewrite map_map. cbn [fst].
        assert (Ck : count i (map (fun _ => k) (ix k)) = if Nat.eqb i k then count k flips else 0%nat).
        { rewrite <- Lk. clear. induction (ix k) as [|a l IH]; cbn [map length]; [destruct (Nat.eqb i k); reflexivity|]. rewrite count_cons, IH. destruct (Nat.eqb i k); reflexivity. }
        rewrite Ck. destruct (Nat.eqb_spec i k) as [Ek|Ek], (Nat.leb_spec (S k) i), (Nat.ltb_spec i (S k + m)), (Nat.leb_spec k i), (Nat.ltb_spec i (k + S m)); cbn [andb]; try lia; subst i; lia. }
      split.
      { intros ij Hij. apply in_app_or in Hij. destruct Hij as [Hij|Hij]; [apply in_map_iff in Hij; destruct Hij as [i [<- _]]; cbn; lia|].
        specialize (Hk _ Hij). lia. }
      cbn [concat]. apply Forall2_app.
      + clear - Fo. induction Fo as [|i a l o Hi _ IH]; cbn [map]; constructor; [|exact IH]. cbn [fst snd]. exists s. rewrite Nat.sub_diag. auto.
      + clear - F Hk. induction F as [|ij a pos o [s0 [E1 E2]] _ IH]; constructor; [|apply IH; intros x Hx; apply Hk; right; exact Hx].
        specialize (Hk ij (or_introl eq_refl)). exists s0. replace (fst ij - k)%nat with (S (fst ij - S k)) by lia. auto. }
  destruct (G n 0%nat samples) as [outs [pos [E [Nd [Hc [_ F]]]]]].
  { intros i Hi. destruct (nth_error samples i) as [s|] eqn:Es; [|apply nth_error_None in Es; lia]. exists s. split; [reflexivity|].
    apply HN. apply nth_error_In in Es. exact Es. }
  exists (concat outs), pos. rewrite E. cbn [rbind]. split; [reflexivity|]. split; [exact Nd|]. split.
  - apply perm_counts. intros i. rewrite Hc. destruct (Nat.leb_spec 0 i), (Nat.ltb_spec i (0 + n)); cbn [andb]; try lia.
    symmetry. apply bincount_out. fold n. lia.
  - clear - F. induction F as [|ij a pos o [s [E1 E2]] _ IH]; constructor; [|exact IH]. rewrite Nat.sub_0_r in E1. eauto.
Qed.

Lemma weights_of_query {St} (logpdf : St -> Z -> dict ext -> dict ext -> dict ext -> St * res ext) m e l statenos ps {B} (samples : list (list B)) rowid constraints w :
  shows e l -> selects (length l) (listed statenos) ps -> length samples = length ps ->
  (if match constraints with [] => true | _ => false end then w = repeat 1 (length ps)
   else weighed (fun s => logpdf s rowid constraints [] []) l ps w) ->
  exists e' lw, match constraints with
      | [] => (e, Ok (repeat (Fin 0) (length samples)))
      | _ :: _ => state_weights logpdf m rowid constraints [] statenos e end = (e', Ok lw) /\ shows e' l /\ Forall2 weight_of lw w /\
    length w = length ps.
Proof.
  intros H Hs L Hw. destruct constraints as [|c0 cs].
  - exists e, (repeat (Fin 0) (length samples)). split; [reflexivity|]. split; [exact H|]. rewrite Hw, L, repeat_length. split; [|reflexivity]. clear.
    induction (length ps) as [|n IH]; cbn; constructor; [|exact IH]. left. exists 0. split; [reflexivity|]. symmetry. apply exp_0.
  - destruct (weights_found m _ e l _ ps w H Hs Hw) as [e' [ws [E [H' W]]]]. exists e', ws. split; [exact E|]. split; [exact H'|]. split; [exact W|].
    destruct Hw as [_ Hw]. apply Forall2_length in Hw. lia.
Qed.
(** What is returned once the states are drawn. *)
Lemma resample_flips {St B} (logpdf : St -> Z -> dict ext -> dict ext -> dict ext -> St * res ext) draws subset m (e e' : engine St) l statenos ps (samples : list (list B)) N rowid constraints lw flips :
  shows e l -> selects (length l) (listed statenos) ps -> statenos <> Some [] ->
  length samples = length ps -> samples <> [] -> (forall s, In s samples -> length s = N) -> subset_ok subset ->
  match constraints with
      | [] => (e, Ok (repeat (Fin 0) (length samples)))
      | _ :: _ => state_weights logpdf m rowid constraints [] statenos e end = (e', Ok lw) ->
  log_pflip_many draws lw (seq 0 (length lw)) N = Ok flips -> length flips = N -> (forall x, In x flips -> (x < length samples)%nat) ->
  exists out pos, lw_resample logpdf draws subset m samples rowid constraints [] statenos e = (e', Ok out) /\
    NoDup pos /\ Permutation (map fst pos) flips /\
    Forall2 (fun ij a => exists s, nth_error samples (fst ij) = Some s /\ nth_error s (snd ij) = Some a) pos out.
Proof.
  intros H Hs Hne L Hsam HN Hsub E Ef Lf Hf.
  destruct (picked_spec subset samples N flips Hsub HN Lf Hf) as [out [pos [Eo [Nd [Pm F]]]]].
  exists out, pos. split; [|auto].
  unfold lw_resample. rewrite (asserted_ok samples statenos e l ps H Hs Hne L).
  destruct samples as [|s0 ss]; [congruence|]. cbn [hd tl].
  assert (A : forallb (fun s => Nat.eqb (length s) (length s0)) ss = true).
  { apply forallb_forall. intros s Hin. apply Nat.eqb_eq. rewrite (HN s (or_intror Hin)), (HN s0 (or_introl eq_refl)). reflexivity. }
  rewrite A. rewrite (HN s0 (or_introl eq_refl)). rewrite E. cbn [rbind]. rewrite Ef. cbn [rbind]. rewrite Eo. reflexivity.
Qed.

(** N samples: of each state as many as the generator drew it, none used twice, and none of
    a state of weight zero. *)
Theorem C57_resample : forall St B logpdf draws subset m (e : engine St) l statenos ps (samples : list (list B)) N rowid constraints w,
  shows e l -> selects (length l) (listed statenos) ps -> statenos <> Some [] ->
  length samples = length ps -> samples <> [] -> (forall s, In s samples -> length s = N) ->
  (forall j, draw_ok (draws j)) -> subset_ok subset ->
  (if match constraints with [] => true | _ => false end then w = repeat 1 (length ps)
   else weighed (fun s => logpdf s rowid constraints [] []) l ps w) -> 0 < Rsum w ->
  exists e' lw flips out pos, lw_resample logpdf draws subset m samples rowid constraints [] statenos e = (e', Ok out) /\ shows e' l /\
    Forall2 weight_of lw w /\ log_pflip_many draws lw (seq 0 (length lw)) N = Ok flips /\
    length out = N /\ NoDup pos /\ Permutation (map fst pos) flips /\
    Forall2 (fun ij a => exists s x, nth_error samples (fst ij) = Some s /\ nth_error s (snd ij) = Some a /\
      nth_error w (fst ij) = Some x /\ 0 < x) pos out.
Proof.
  intros St B logpdf draws subset m e l statenos ps samples N rowid constraints w H Hs Hne L Hsam HN Hd Hsub Hw Hp.
  destruct (weights_of_query logpdf m e l statenos ps samples rowid constraints w H Hs L Hw) as [e' [lw [E [H' [W Lp]]]]]. pose proof (Forall2_length _ _ _ W) as Lw.
  destruct (C16_log_pflip_many nat draws lw w (seq 0 (length lw)) N Hd W Hp) as [flips [Ef [Lf Ff]]]; [rewrite seq_length; lia|].
  assert (Hf : forall x, In x flips -> (x < length samples)%nat /\ exists y, nth_error w x = Some y /\ 0 < y).
  { intros x Hx. rewrite Forall_forall in Ff. destruct (Ff x Hx) as [i [y [Ei [Ey Py]]]].
    assert (Hi : (i < length lw)%nat) by (rewrite <- (seq_length (length lw) 0); apply nth_error_Some; congruence).
    rewrite nth_error_from0 in Ei by exact Hi. injection Ei as ->. split; [lia|eauto]. }
  destruct (resample_flips logpdf draws subset m e e' l statenos ps samples N rowid constraints lw flips H Hs Hne L Hsam HN Hsub E Ef Lf (fun x Hx => proj1 (Hf x Hx)))
    as [out [pos [Eo [Nd [Pm F]]]]].
  exists e', lw, flips, out, pos. split; [exact Eo|].
  split; [exact H'|]. split; [exact W|]. split; [exact Ef|]. pose proof (Forall2_length _ _ _ F) as Lo.
  pose proof (Permutation_length Pm) as Lpm. rewrite map_length in Lpm. split; [lia|]. split; [exact Nd|]. split; [exact Pm|].
  assert (Hpos : forall ij, In ij pos -> exists y, nth_error w (fst ij) = Some y /\ 0 < y).
  { intros ij Hij. apply Hf. apply (Permutation_in _ Pm). apply in_map. exact Hij. }
  clear - F Hpos. induction F as [|ij a pos o [s [E1 E2]] _ IH]; constructor; [|apply IH; intros x Hx; apply Hpos; right; exact Hx].
  destruct (Hpos ij (or_introl eq_refl)) as [y [Ey Py]]. exists s, y. auto.
Qed.
Print Assumptions C57_resample.

(* ------------------------------------------------------------------ *)
(** ** The law of the samples *)

(** All results of [n] draws among [k] states, and their probability when the draws are
    independent with the given law. *)
Fixpoint vectors (k n : nat) : list (list nat) :=
  match n with
  | O => [[]]
  | S n' => concat (map (fun x => map (cons x) (vectors k n')) (seq 0 k))
  end.
Definition chance (p : list R) (v : list nat) : R := fold_right (fun x acc => nth x p 0 * acc) 1 v.
(** The generator that draws a given result. *)
Definition drawing (v : list nat) (j : nat) (_ : list ext) : nat := nth j v 0%nat.

Lemma vectors_in k n v : In v (vectors k n) -> length v = n /\ forall x, In x v -> (x < k)%nat.
Proof.
  revert v. induction n as [|n IH]; intros v Hv.
  - destruct Hv as [<-|[]]. split; [reflexivity|]. intros x [].
  - cbn [vectors] in Hv. apply in_concat in Hv. destruct Hv as [l [Hl Hv]]. apply in_map_iff in Hl. destruct Hl as [x [<- Hx]].
    apply in_map_iff in Hv. destruct Hv as [v' [<- Hv']]. destruct (IH v' Hv') as [L B]. split; [cbn; lia|].
    intros y [<-|Hy]; [apply in_seq in Hx; lia|auto].
Qed.
Lemma sum_concat {A} (f : A -> R) ls : Rsum (map f (concat ls)) = Rsum (map (fun l => Rsum (map f l)) ls).
Proof. induction ls as [|l ls IH]; [reflexivity|]. cbn [concat map]. rewrite map_app, Rsum_app, IH. reflexivity. Qed.

Lemma sum_point (p : list R) (i : nat) : (i < length p)%nat ->
  Rsum (map (fun x => nth x p 0 * (if Nat.eqb i x then 1 else 0)) (seq 0 (length p))) = nth i p 0.
Proof.
  assert (G : forall n k, Rsum (map (fun x => nth x p 0 * (if Nat.eqb i x then 1 else 0)) (seq k n)) =
    if ((k <=? i) && (i <? k + n))%nat then nth i p 0 else 0).
  { induction n as [|n IH]; intros k.
    - cbn [seq map]. destruct (Nat.leb_spec k i), (Nat.ltb_spec i (k + 0)); cbn [andb]; try reflexivity; lia.
    - cbn [seq map]. change (Rsum (?a :: ?l)) with (a + Rsum l). rewrite IH.
      destruct (Nat.eqb_spec i k) as [Ek|Ek], (Nat.leb_spec k i), (Nat.leb_spec (S k) i), (Nat.ltb_spec i (S k + n)), (Nat.ltb_spec i (k + S n)); cbn [andb]; try lia; try subst k; ring. }
  intros Hi. rewrite G. destruct (Nat.leb_spec 0 i), (Nat.ltb_spec i (0 + length p)); cbn [andb]; try lia. reflexivity.
Qed.

Lemma sum_entries (p : list R) : Rsum (map (fun x => nth x p 0) (seq 0 (length p))) = Rsum p.
Proof.
  assert (E : map (fun x => nth x p 0) (seq 0 (length p)) = p); [|rewrite E; reflexivity].
  apply (nth_ext _ _ 0 0); [rewrite map_length, seq_length; reflexivity|]. intros n Hn. rewrite map_length, seq_length in Hn.
  rewrite (nth_indep _ 0 (nth 0 p 0)) by (rewrite map_length, seq_length; exact Hn).
  rewrite (map_nth (fun x => nth x p 0)), seq_nth by exact Hn. reflexivity.
Qed.
Lemma chance_total p n : Rsum p = 1 -> Rsum (map (chance p) (vectors (length p) n)) = 1.
Proof.
  intros Hp. induction n as [|n IH]; [cbn; lra|]. cbn [vectors]. rewrite sum_concat, map_map.
  rewrite (map_ext _ (fun x => nth x p 0)). { rewrite sum_entries. exact Hp. }
  intros x. rewrite map_map. rewrite (map_ext (fun v => chance p (x :: v)) (fun v => nth x p 0 * chance p v)) by reflexivity.
  rewrite Rsum_map_scal, IH. ring.
Qed.
(** The expected number of times that a state is drawn. *)
Lemma expected_count p i n : Rsum p = 1 -> (i < length p)%nat ->
  Rsum (map (fun v => chance p v * INR (count i v)) (vectors (length p) n)) = INR n * nth i p 0.
Proof.
  intros Hp Hi. induction n as [|n IH]; [cbn; lra|]. cbn [vectors]. rewrite sum_concat, map_map.
  rewrite (map_ext _ (fun x => nth x p 0 * (if Nat.eqb i x then 1 else 0) + nth x p 0 * (INR n * nth i p 0))).
  - rewrite Rsum_map_plus, sum_point by exact Hi. rewrite (map_ext (fun x => nth x p 0 * (INR n * nth i p 0)) (fun x => (INR n * nth i p 0) * nth x p 0)) by (intros; ring).
    rewrite Rsum_map_scal, sum_entries, Hp, S_INR. ring.
  - intros x. rewrite map_map.
    rewrite (map_ext (fun v => chance p (x :: v) * INR (count i (x :: v)))
      (fun v => nth x p 0 * (if Nat.eqb i x then 1 else 0) * chance p v + nth x p 0 * (chance p v * INR (count i v)))).
    + rewrite Rsum_map_plus. rewrite !Rsum_map_scal. pose proof (chance_total p n Hp) as T. rewrite IH. change (fun v => chance p v) with (chance p). rewrite T. ring.
    + intros v. rewrite count_cons, plus_INR. cbn [chance fold_right]. fold (chance p v). destruct (Nat.eqb i x); cbn [INR]; ring.
Qed.

Lemma list_eq_nth_ok (v : list nat) N (L : length v = N) (f : nat -> res nat) :
  (forall j, (j < N)%nat -> f j = Ok (nth j v 0%nat)) -> map f (seq 0 N) = map Ok v.
Proof.
  intros H. apply (nth_ext _ _ (Ok 0%nat) (Ok 0%nat)); [rewrite !map_length, seq_length; lia|]. intros j Hj. rewrite map_length, seq_length in Hj.
  rewrite (nth_indep _ (Ok 0%nat) (f 0%nat)) by (rewrite map_length, seq_length; exact Hj). rewrite (map_nth f), seq_nth by exact Hj.
  rewrite (map_nth Ok). apply H. exact Hj.
Qed.
Lemma drawing_flips lw w v N : Forall2 weight_of lw w -> 0 < Rsum w -> In v (vectors (length lw) N) ->
  log_pflip_many (drawing v) lw (seq 0 (length lw)) N = Ok v.
Proof.
  intros W Hp Hv. destruct (vectors_in _ _ _ Hv) as [Lv Bv]. pose proof (Forall2_length _ _ _ W) as Lw.
  destruct (C16_log_pflip_many nat (fun _ => first_pos) lw w (seq 0 (length lw)) N (fun _ => C16_draw_ex) W Hp) as [o [Eo _]]; [rewrite seq_length; exact Lw|].
  unfold log_pflip_many in *. destruct (log_normalize lw) as [lp|] eqn:En; [|discriminate]. cbn [rbind] in *.
  assert (Lp : length lp = length lw).
  { unfold log_normalize in En. destruct (logsumexp lw); [|discriminate]. cbn [rbind] in En. injection En as <-. apply map_length. }
  unfold pflip_many in *. destruct (map eexp lp) as [|x [|y q]] eqn:Eq.
  - destruct (length lw) eqn:El; [|exfalso; apply (f_equal (@length ext)) in Eq; rewrite map_length in Eq; cbn in Eq; lia].
    exfalso. destruct w; [cbn in Hp; lra|cbn in Lw; lia].
  - assert (El : length lw = 1%nat) by (apply (f_equal (@length ext)) in Eq; rewrite map_length in Eq; cbn in Eq; lia).
    rewrite El in *. cbn [seq]. f_equal. symmetry. apply (nth_ext _ _ 0%nat 0%nat); [rewrite repeat_length; exact Lv|].
    intros n Hn. rewrite nth_repeat. assert (H : (nth n v 0 < 1)%nat) by (apply Bv, nth_In; exact Hn). lia.
  - rewrite <- Eq in *. clear x y q Eq.
    destruct (Nat.eqb (length (seq 0 (length lw))) (length (map eexp lp)) && forallb ext_nonneg (normalize (map eexp lp))) eqn:Ec; [|discriminate].
    apply andb_prop in Ec. destruct Ec as [E1 E2].
    assert (Ln : length (normalize (map eexp lp)) = length lw) by (unfold normalize; rewrite !map_length; exact Lp).
    apply rsequence_ok. apply (list_eq_nth_ok v N Lv). intros j Hj. unfold choice. rewrite seq_length, Ln, Nat.eqb_refl, E2. cbn [andb]. unfold drawing.
    rewrite nth_error_from0; [reflexivity|]. apply Bv, nth_In. lia.
Qed.

(** In expectation over the draws, each state supplies the share of the samples that its
    weight is of all. *)
Theorem C57_share : forall St B logpdf subset m (e : engine St) l statenos ps (samples : list (list B)) (tag : B -> nat) N rowid constraints w i y,
  shows e l -> selects (length l) (listed statenos) ps -> statenos <> Some [] ->
  length samples = length ps -> samples <> [] -> (forall s, In s samples -> length s = N) -> subset_ok subset ->
  (forall j s a, nth_error samples j = Some s -> In a s -> tag a = j) ->
  (if match constraints with [] => true | _ => false end then w = repeat 1 (length ps)
   else weighed (fun s => logpdf s rowid constraints [] []) l ps w) -> 0 < Rsum w -> nth_error w i = Some y ->
  Rsum (map (fun v => chance (map (fun x => x / Rsum w) w) v *
    match snd (lw_resample logpdf (drawing v) subset m samples rowid constraints [] statenos e) with
    | Ok out => INR (length (filter (fun a => Nat.eqb (tag a) i) out))
    | Err _ => 0
    end) (vectors (length ps) N)) = INR N * (y / Rsum w).
Proof.
  intros St B logpdf subset m e l statenos ps samples tag N rowid constraints w i y H Hs Hne L Hsam HN Hsub Ht Hw Hp Hy.
  destruct (weights_of_query logpdf m e l statenos ps samples rowid constraints w H Hs L Hw) as [e' [lw [E [H' [W Lp]]]]]. pose proof (Forall2_length _ _ _ W) as Lw.
  set (p := map (fun x => x / Rsum w) w). assert (Lpp : length p = length ps) by (unfold p; rewrite map_length; exact Lp).
  assert (Sp : Rsum p = 1).
  { unfold p. rewrite (Rsum_map_div (fun x => x)), map_id. field. lra. }
  assert (Hi : (i < length p)%nat) by (rewrite Lpp, <- Lp; apply nth_error_Some; congruence).
  assert (Ep : nth i p 0 = y / Rsum w).
  { apply nth_error_nth. unfold p. rewrite nth_error_map, Hy. reflexivity. }
  rewrite <- Ep, <- (expected_count p i N Sp Hi), Lpp. f_equal. apply map_ext_in. intros v Hv. f_equal.
  destruct (vectors_in _ _ _ Hv) as [Lv Bv]. rewrite <- Lp, <- Lw in Hv.
  pose proof (drawing_flips lw w v N W Hp Hv) as Ef.
  destruct (resample_flips logpdf (drawing v) subset m e e' l statenos ps samples N rowid constraints lw v H Hs Hne L Hsam HN Hsub E Ef Lv) as [out [pos [Eo [Nd [Pm F]]]]].
  { intros x Hx. rewrite L. apply Bv. exact Hx. }
  rewrite Eo. cbn [snd]. f_equal. rewrite <- (perm_count _ _ i Pm). clear - F Ht.
  induction F as [|ij a pos out [s [E1 E2]] _ IH]; [reflexivity|]. cbn [map filter]. rewrite count_cons, <- IH.
  rewrite (Ht (fst ij) s a E1 (nth_error_In _ _ E2)). rewrite Nat.eqb_sym. destruct (Nat.eqb i (fst ij)); reflexivity.
Qed.
Print Assumptions C57_share.

(* ------------------------------------------------------------------ *)
(** ** What does not hold *)

(** An ensemble of two states that answer [h], [h']. *)
Definition pair (h h' : ext) : engine ext := Engine [h; h'] [0; 1]%nat.
Definition answer (s : ext) (_ : Z) (_ _ _ : dict ext) : ext * res ext := (s, Ok s).
Definition first_ones (_ n k : nat) : list nat := seq 0 k.
Lemma first_ones_ok : subset_ok first_ones.
Proof.
  intros j n k Hk. unfold first_ones. split; [apply seq_length|]. split; [apply seq_NoDup|]. intros i Hi. apply in_seq in Hi. lia.
Qed.
Lemma pair_shows h h' : shows (pair h h') [h; h'].
Proof.
  split; [|repeat constructor]. cbn. constructor; [intros [E|[]]; discriminate|]. constructor; [intros []|constructor].
Qed.
Lemma one : weight_of (Fin 0) 1.
Proof. left. exists 0. split; [reflexivity|]. symmetry. apply exp_0. Qed.
Lemma pair_selects h h' : selects (length [h; h' : ext]) (listed None) [0; 1]%nat.
Proof. left. split; reflexivity. Qed.

(** The samples come in the order of the states, so that the first of them is not one of
    a state chosen by weight: two states of the same weight, two samples of each. *)
Definition tagged : list (list nat) := [[0; 0]; [1; 1]]%nat.
Lemma tagged_case v : In v (vectors 2 2) ->
  lw_resample answer (drawing v) first_ones Map tagged 0 [] [] None (pair (Fin 0) (Fin 0)) =
  (pair (Fin 0) (Fin 0), rbind (Ok v) (fun flips => picked tagged (map (fun jn => first_ones (fst jn) 2 (snd jn))
     (combine (seq 0 (length (bincount flips))) (bincount flips))))).
Proof.
  intros Hv. rewrite <- (drawing_flips [Fin 0; Fin 0] [1; 1] v 2); [reflexivity| |cbn; lra|exact Hv].
  repeat (apply Forall2_cons; [exact one|]); apply Forall2_nil.
Qed.
Theorem C57_first_refuted : exists St B (logpdf : St -> Z -> dict ext -> dict ext -> dict ext -> St * res ext) subset m (e : engine St) l statenos ps (samples : list (list B)) (tag : B -> nat) N rowid constraints w i y,
  shows e l /\ selects (length l) (listed statenos) ps /\ statenos <> Some [] /\
  length samples = length ps /\ samples <> [] /\ (forall s, In s samples -> length s = N) /\ subset_ok subset /\ (0 < N)%nat /\
  (forall j s a, nth_error samples j = Some s -> In a s -> tag a = j) /\
  (if match constraints with [] => true | _ => false end then w = repeat 1 (length ps)
   else weighed (fun s => logpdf s rowid constraints [] []) l ps w) /\ 0 < Rsum w /\ nth_error w i = Some y /\
  Rsum (map (fun v => chance (map (fun x => x / Rsum w) w) v *
    match snd (lw_resample logpdf (drawing v) subset m samples rowid constraints [] statenos e) with
    | Ok (a :: _) => if Nat.eqb (tag a) i then 1 else 0
    | _ => 0
    end) (vectors (length ps) N)) <> y / Rsum w.
Proof.
  exists ext, nat, answer, first_ones, Map, (pair (Fin 0) (Fin 0)), [Fin 0; Fin 0], None, [0; 1]%nat, tagged, (fun a => a), 2%nat, 0%Z, [], [1; 1], 0%nat, 1.
  split; [apply pair_shows|]. split; [apply (pair_selects (Fin 0) (Fin 0))|]. split; [discriminate|]. split; [reflexivity|]. split; [discriminate|].
  split; [intros s [<-|[<-|[]]]; reflexivity|]. split; [apply first_ones_ok|]. split; [lia|].
  split. { intros [|[|j]] s a E Ha; cbn in E; [injection E as <-|injection E as <-|destruct j; discriminate]; cbn in Ha; intuition congruence. }
  split; [reflexivity|]. split; [cbn; lra|]. split; [reflexivity|].
  rewrite (map_ext_in _ (fun v => chance (map (fun x => x / Rsum [1; 1]) [1; 1]) v *
    match rbind (Ok v) (fun flips => picked tagged (map (fun jn => first_ones (fst jn) 2 (snd jn))
     (combine (seq 0 (length (bincount flips))) (bincount flips)))) with
    | Ok (a :: _) => if Nat.eqb a 0 then 1 else 0
    | _ => 0
    end)).
  2:{ intros v Hv. rewrite (tagged_case v Hv). reflexivity. }
  cbn. lra.
Qed.
Print Assumptions C57_first_refuted.

(** With all states, as many densities as states are insisted on; *)
Theorem C57_lengths_partial : forall St logpdf m (e : engine St) l logpdfs rowid constraints inputs,
  shows e l -> length logpdfs <> length l -> lw_integrate logpdf m logpdfs rowid constraints inputs None e = (e, Err AssertionError).
Proof.
  intros St logpdf m e l logpdfs rowid constraints inputs H L. unfold lw_integrate, asserted.
  destruct (Nat.eqb_spec (length logpdfs) (num_states e)) as [E|E]; [|reflexivity].
  exfalso. apply L. rewrite E. apply shows_length. exact H.
Qed.
Print Assumptions C57_lengths_partial.
(** with chosen ones, any number: the assertion only asks that some be chosen. *)
Theorem C57_lengths_refuted : exists St logpdf m (e : engine St) l statenos ps logpdfs rowid e' v,
  shows e l /\ selects (length l) statenos ps /\ statenos <> [] /\ length logpdfs <> length ps /\
  lw_integrate logpdf m logpdfs rowid [] [] (Some statenos) e = (e', Ok v).
Proof.
  destruct (C15_logmeanexp [Fin 0; Fin 0; Fin 0] [1; 1; 1]) as [v [Ev _]]; [discriminate| |].
  { repeat (apply Forall2_cons; [exact one|]); apply Forall2_nil. }
  exists ext, answer, Map, (pair (Fin 0) (Fin 0)), [Fin 0; Fin 0], [0; 1]%Z, [0; 1]%nat, [Fin 0; Fin 0; Fin 0], 0%Z, (pair (Fin 0) (Fin 0)), v.
  split; [apply pair_shows|]. split. { right. split; [discriminate|]. repeat constructor; cbn; try lia. }
  split; [discriminate|]. split; [discriminate|]. unfold lw_integrate. cbn [asserted length Nat.eqb negb]. rewrite Ev. reflexivity.
Qed.
Print Assumptions C57_lengths_refuted.

(** The inputs are passed in place of the constraints: states that need inputs, and can
    weigh the constraints with them, make the query fail. *)
Definition needy (s : ext) (_ : Z) (_ _ inputs : dict ext) : ext * res ext :=
  (s, match inputs with [] => Err ValueError | _ :: _ => Ok s end).
Theorem C57_inputs_refuted : exists St logpdf m (e : engine St) l ps logpdfs rowid constraints inputs w x,
  shows e l /\ selects (length l) [] ps /\ constraints <> [] /\
  weighed (fun s => logpdf s rowid constraints [] inputs) l ps w /\ 0 < Rsum w /\ length logpdfs = length ps /\
  snd (lw_integrate logpdf m logpdfs rowid constraints inputs None e) = Err x.
Proof.
  exists ext, needy, Map, (pair (Fin 0) (Fin 0)), [Fin 0; Fin 0], [0; 1]%nat, [Fin 0; Fin 0], 0%Z, [(3%Z, Fin 1)], [(9%Z, Fin 1)], [1; 1], ValueError.
  split; [apply pair_shows|]. split; [apply (pair_selects (Fin 0) (Fin 0))|]. split; [discriminate|]. split.
  - split; [reflexivity|]. repeat (apply Forall2_cons; [exists (Fin 0), (Fin 0); split; [reflexivity|]; split; [reflexivity|exact one]|]); apply Forall2_nil.
  - split; [cbn; lra|]. split; reflexivity.
Qed.
Print Assumptions C57_inputs_refuted.

(** Constraints impossible under every one of several states are refused, *)
Theorem C57_impossible_partial : forall St B logpdf draws subset m (e : engine St) l statenos ps (samples : list (list B)) N rowid constraints w,
  shows e l -> selects (length l) (listed statenos) ps -> statenos <> Some [] -> constraints <> [] ->
  length samples = length ps -> samples <> [] -> (forall s, In s samples -> length s = N) ->
  weighed (fun s => logpdf s rowid constraints [] []) l ps w -> (forall x, In x w -> x = 0) -> (2 <= length ps)%nat ->
  exists e', lw_resample logpdf draws subset m samples rowid constraints [] statenos e = (e', Err ValueError) /\ shows e' l.
Proof.
  intros St B logpdf draws subset m e l statenos ps samples N rowid constraints w H Hs Hne Hc L Hsam HN Hw H0 H2.
  destruct (weights_found m _ e l _ ps w H Hs Hw) as [e' [ws [E [H' W]]]]. exists e'. split; [|exact H'].
  unfold lw_resample. rewrite (asserted_ok samples statenos e l ps H Hs Hne L).
  destruct samples as [|s0 ss]; [congruence|]. cbn [hd tl].
  assert (A : forallb (fun s => Nat.eqb (length s) (length s0)) ss = true).
  { apply forallb_forall. intros s Hin. apply Nat.eqb_eq. rewrite (HN s (or_intror Hin)), (HN s0 (or_introl eq_refl)). reflexivity. }
  rewrite A. destruct constraints as [|c0 cs]; [congruence|]. unfold state_weights. rewrite E. cbn [rbind].
  assert (F : Forall (fun x => x = NInf) ws).
  { apply Forall_forall. intros x Hx. clear - W H0 Hx. induction W as [|a y ws w Ha _ IH]; [destruct Hx|].
    destruct Hx as [->|Hx]; [|apply IH; [intros z Hz; apply H0; right; exact Hz|exact Hx]].
    destruct Ha as [[b [_ Ey]]|[-> _]]; [|reflexivity]. exfalso. pose proof (H0 y (or_introl eq_refl)). pose proof (exp_pos b). lra. }
  assert (Lw : (2 <= length ws)%nat).
  { destruct Hw as [_ Hw]. apply Forall2_length in Hw. apply Forall2_length in W. lia. }
  unfold log_pflip_many. rewrite (C15_log_normalize_zero ws F). cbn [rbind].
  destruct ws as [|x [|y ws]]; cbn in Lw; try lia. cbn [map eexp]. unfold pflip_many.
  replace (forallb ext_nonneg (normalize (NaN :: NaN :: map eexp (map (fun _ => NaN) ws)))) with false.
  - rewrite andb_false_r. reflexivity.
  - reflexivity.
Qed.
Print Assumptions C57_impossible_partial.
(** but not under a single state: its samples are returned. *)
Theorem C57_impossible_refuted : exists St B (logpdf : St -> Z -> dict ext -> dict ext -> dict ext -> St * res ext) draws subset m (e : engine St) l statenos ps (samples : list (list B)) N rowid constraints w e' out,
  shows e l /\ selects (length l) (listed statenos) ps /\ statenos <> Some [] /\ constraints <> [] /\
  length samples = length ps /\ samples <> [] /\ (forall s, In s samples -> length s = N) /\
  weighed (fun s => logpdf s rowid constraints [] []) l ps w /\ (forall x, In x w -> x = 0) /\ subset_ok subset /\
  lw_resample logpdf draws subset m samples rowid constraints [] statenos e = (e', Ok out) /\ out <> [].
Proof.
  exists ext, nat, answer, (fun _ => first_pos), first_ones, Map, (pair NInf NInf), [NInf; NInf], (Some [0%Z]), [0%nat], [[5%nat]], 1%nat, 0%Z, [(3%Z, Fin 1)], [0],
    (pair NInf NInf), [5%nat].
  split; [apply pair_shows|]. split. { right. split; [discriminate|]. apply Forall2_cons; [|apply Forall2_nil]. split; [cbn; lia|left; reflexivity]. }
  split; [discriminate|]. split; [discriminate|]. split; [reflexivity|]. split; [discriminate|]. split; [intros s [<-|[]]; reflexivity|].
  split. { split; [reflexivity|]. apply Forall2_cons; [|apply Forall2_nil]. exists NInf, NInf. split; [reflexivity|]. split; [reflexivity|]. right. split; reflexivity. }
  split; [intros x [<-|[]]; reflexivity|]. split; [apply first_ones_ok|]. split; [|discriminate].
  unfold lw_resample. cbn [asserted length Nat.eqb negb hd tl forallb]. unfold state_weights.
  change (evaluate Map (fun s => answer s 0 [(3%Z, Fin 1)] [] []) (listed (Some [0%Z])) (pair NInf NInf)) with (pair NInf NInf, Ok [NInf]).
  cbn [rbind]. unfold log_pflip_many. rewrite (C15_log_normalize_zero [NInf]) by (repeat constructor). reflexivity.
Qed.
Print Assumptions C57_impossible_refuted.

(* ------------------------------------------------------------------ *)
(** ** Examples *)

(** Two states of weights 1 and 3. *)
Definition uneven := pair (Fin 0) (Fin (ln 3)).
Lemma uneven_weighed : weighed (fun s => answer s 0 [(3%Z, Fin 1)] [] []) [Fin 0; Fin (ln 3)] [0; 1]%nat [1; 3].
Proof.
  split; [reflexivity|]. constructor; [|constructor; [|constructor]].
  - exists (Fin 0), (Fin 0). split; [reflexivity|]. split; [reflexivity|]. left. exists 0. split; [reflexivity|]. symmetry. apply exp_0.
  - exists (Fin (ln 3)), (Fin (ln 3)). split; [reflexivity|]. split; [reflexivity|]. left. exists (ln 3). split; [reflexivity|]. rewrite exp_ln by lra. reflexivity.
Qed.
Example C57_integrate_ex : exists e' v, lw_integrate answer Map [Fin 0; NInf] 0 [(3%Z, Fin 1)] [] None uneven = (e', Ok v) /\
  shows e' [Fin 0; Fin (ln 3)] /\ weight_of v (/ 4).
Proof.
  destruct (C57_integrate ext answer Map uneven [Fin 0; Fin (ln 3)] None [0; 1]%nat [Fin 0; NInf] [1; 0] 0 [(3%Z, Fin 1)] [1; 3]) as [e' [v [E [S' W]]]].
  - apply pair_shows.
  - apply (pair_selects (Fin 0) (Fin 0)).
  - discriminate.
  - discriminate.
  - apply uneven_weighed.
  - cbn. lra.
  - reflexivity.
  - apply Forall2_cons; [exact one|]. apply Forall2_cons; [right; split; reflexivity|apply Forall2_nil].
  - exists e', v. split; [exact E|]. split; [exact S'|]. replace (/ 4) with (Rsum (map (fun wa => fst wa * snd wa) (combine [1; 3] [1; 0])) / Rsum [1; 3]); [exact W|]. cbn. lra.
Qed.
(** Of two samples, one and a half are expected of the second state. *)
Example C57_share_ex :
  Rsum (map (fun v => chance (map (fun x => x / Rsum [1; 3]) [1; 3]) v *
    match snd (lw_resample answer (drawing v) first_ones Map tagged 0 [(3%Z, Fin 1)] [] None uneven) with
    | Ok out => INR (length (filter (fun a => Nat.eqb a 1) out))
    | Err _ => 0
    end) (vectors 2 2)) = 3 / 2.
Proof.
  refine (eq_trans (C57_share ext nat answer first_ones Map uneven [Fin 0; Fin (ln 3)] None [0; 1]%nat tagged (fun a => a) 2 0 [(3%Z, Fin 1)] [1; 3] 1 3 _ _ _ _ _ _ _ _ _ _ _) _).
  - apply pair_shows.
  - apply (pair_selects (Fin 0) (Fin 0)).
  - discriminate.
  - reflexivity.
  - discriminate.
  - intros s [<-|[<-|[]]]; reflexivity.
  - apply first_ones_ok.
  - intros [|[|j]] s a E Ha; cbn in E; [injection E as <-|injection E as <-|destruct j; discriminate]; cbn in Ha; intuition congruence.
  - apply uneven_weighed.
  - cbn. lra.
  - reflexivity.
  - cbn. lra.
Qed.
Example C57_resample_ex : exists e' out, lw_resample answer (fun _ => first_pos) first_ones Map tagged 0 [(3%Z, Fin 1)] [] None uneven = (e', Ok out) /\ length out = 2%nat.
Proof.
  destruct (C57_resample ext nat answer (fun _ => first_pos) first_ones Map uneven [Fin 0; Fin (ln 3)] None [0; 1]%nat tagged 2 0 [(3%Z, Fin 1)] [1; 3])
    as [e' [lw [flips [out [pos [E [_ [_ [_ [L _]]]]]]]]]].
  - apply pair_shows.
  - apply (pair_selects (Fin 0) (Fin 0)).
  - discriminate.
  - reflexivity.
  - discriminate.
  - intros s [<-|[<-|[]]]; reflexivity.
  - intros j. apply C16_draw_ex.
  - apply first_ones_ok.
  - apply uneven_weighed.
  - cbn. lra.
  - exists e', out. auto.
Qed.
Example C57_impossible_ex : exists e', lw_resample answer (fun _ => first_pos) first_ones Map tagged 0 [(3%Z, Fin 1)] [] None (pair NInf NInf) = (e', Err ValueError).
Proof.
  destruct (C57_impossible_partial ext nat answer (fun _ => first_pos) first_ones Map (pair NInf NInf) [NInf; NInf] None [0; 1]%nat tagged 2 0 [(3%Z, Fin 1)] [0; 0]) as [e' [E _]].
  - apply pair_shows.
  - apply (pair_selects (Fin 0) (Fin 0)).
  - discriminate.
  - discriminate.
  - reflexivity.
  - discriminate.
  - intros s [<-|[<-|[]]]; reflexivity.
  - split; [reflexivity|]. repeat (apply Forall2_cons; [exists NInf, NInf; split; [reflexivity|]; split; [reflexivity|]; right; split; reflexivity|]); apply Forall2_nil.
  - intros x [<-|[<-|[]]]; reflexivity.
  - cbn. lia.
  - exists e'. exact E.
Qed.
Example C57_lengths_ex : lw_integrate answer Map [Fin 0] 0 [(3%Z, Fin 1)] [] None uneven = (uneven, Err AssertionError).
Proof. apply (C57_lengths_partial ext answer Map uneven [Fin 0; Fin (ln 3)]); [apply pair_shows|discriminate]. Qed.
