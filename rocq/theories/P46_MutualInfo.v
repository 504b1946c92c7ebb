(** C70: the mutual information of a state: what is refused, how the query is split, and that the
    estimate has the mutual information as its mean. *)
From Verif Require Import MutualInfo ListFacts BaseFacts LogSpaceFacts NetworkFacts.
From Coq Require Import List ZArith Reals Bool Lia Lra Permutation Relations.
Import ListNotations.
Local Open Scope R_scope.

(* ------------------------------------------------------------------ *)
(** ** Specification: finite laws *)
Section Spec.
  Variable V : Type.
  Variable eqb : V -> V -> bool.
  (** Rows with their probabilities. *)
  Variable P : list (dict V * R).
  Definition law : Prop := Forall (fun e => 0 < snd e) P /\ Rsum (map snd P) = 1.
  Definition defined (vars : list Z) : Prop := forall e, In e P -> forall v, In v vars -> In v (dkeys (fst e)).
  (** A row has the values of an assignment. *)
  Definition agrees (a row : dict V) : bool :=
    forallb (fun e => match dget (fst e) row with Some v => eqb (snd e) v | None => false end) a.
  Definition prob (a : dict V) : R := Rsum (map (fun e => if agrees a (fst e) then snd e else 0) P).
  Definition rows (c : dict V) : list (dict V * R) := filter (fun e => agrees c (fst e)) P.
  (** Mean of a function of the row, given an assignment. *)
  Definition mean (c : dict V) (f : dict V -> R) : R := Rsum (map (fun e => snd e / prob c * f (fst e)) (rows c)).
  (** The values of some variables. *)
  Definition proj (vars : list Z) (row : dict V) : dict V :=
    flat_map (fun v => match dget v row with Some x => [(v, x)] | None => [] end) vars.
  (** Mutual information of X and Y, and entropy of X, given an assignment. *)
  Definition info (X Y : list Z) (c : dict V) : R :=
    mean c (fun r => ln (prob (proj (X ++ Y) r ++ c) * prob c / (prob (proj X r ++ c) * prob (proj Y r ++ c)))).
  Definition entropy (X : list Z) (c : dict V) : R := mean c (fun r => - ln (prob (proj X r ++ c) / prob c)).

  (** Independent samples. *)
  Definition given (vars : list Z) (c : dict V) : prog (dict V) :=
    Flip (map snd (rows c)) (fun i => Ret (proj vars (nth i (map fst (rows c)) []))).
  Fixpoint iid {A} (n : nat) (d : prog A) : prog (list A) :=
    match n with O => Ret [] | S n => pbind d (fun x => pbind (iid n d) (fun l => Ret (x :: l))) end.
  (** Queries of this law, about these variables of a row that is not stored. *)
  Record exact (vars : list Z) (q : queries V) : Prop := Exact {
    ex_simulate : forall r T c n f, r = None \/ r = Some (-1)%Z -> incl T vars -> 0 < prob c -> expect (q_simulate q r T c n) f = expect (iid n (given T c)) (fun l => f (Ok l));
    ex_logpdf : forall t c, incl (dkeys t) vars -> 0 < prob c -> 0 < prob (t ++ c) -> q_logpdf q (-1) t c = Ok (Fin (ln (prob (t ++ c) / prob c))) }.
  (** The number answered, [junk] if there is none. *)
  Definition value (junk : R) (r : res ext) : R := match r with Ok (Fin x) => x | _ => junk end.
End Spec.

(* ------------------------------------------------------------------ *)
(** ** Programs *)
Lemma surely_bind {A B} (p : prog A) (f : A -> prog B) (Q : A -> Prop) (S : B -> Prop) : surely p Q -> (forall a, Q a -> surely (f a) S) -> surely (pbind p f) S.
Proof. induction p as [a|w k IH]; cbn; intros H1 H2; [auto|]. intros i Hi. apply IH; auto. Qed.
Lemma map_nth_seq {A B} (F : A -> B) l d : map (fun i => F (nth i l d)) (seq 0 (length l)) = map F l.
Proof.
  induction l as [|a l IH]; [reflexivity|]. cbn [length seq map nth]. f_equal. rewrite <- seq_shift, map_map. exact IH.
Qed.
Lemma proper_bind {A B} (p : prog A) (k : A -> prog B) : proper p -> (forall x, proper (k x)) -> proper (pbind p k).
Proof. induction p as [a|w k' IH]; cbn; intros H1 H2; [apply H2|]. destruct H1 as (H1 & H3 & H4). split; [exact H1|]. split; [exact H3|]. intros i Hi. apply IH; auto. Qed.
Lemma proper_iid {A} n (d : prog A) : proper d -> proper (iid n d).
Proof. intros Hd. induction n as [|n IH]; [exact I|]. cbn [iid]. apply proper_bind; [exact Hd|]. intros x. apply proper_bind; [exact IH|]. intros l. exact I. Qed.
Lemma iid_sum {A} n (d : prog A) g : proper d -> expect (iid n d) (fun l => Rsum (map g l)) = INR n * expect d g.
Proof.
  intros Hd. induction n as [|n IH]; [cbn; ring|]. cbn [iid]. rewrite expect_bind.
  rewrite (expect_ext_all d _ (fun x => g x + INR n * expect d g)).
  - rewrite expect_plus, expect_const by exact Hd. rewrite S_INR. ring.
  - intros x. rewrite expect_bind. cbn [expect]. rewrite (expect_ext_all _ _ (fun l => g x + Rsum (map g l))) by reflexivity. rewrite expect_plus, IH. f_equal. apply expect_const, proper_iid, Hd.
Qed.
Lemma surely_iid {A} n (d : prog A) Q : surely d Q -> surely (iid n d) (fun l => length l = n /\ Forall Q l).
Proof.
  intros Hd. induction n as [|n IH]; [split; [reflexivity|constructor]|]. cbn [iid]. eapply surely_bind; [exact Hd|]. intros x Hx. eapply surely_bind; [exact IH|]. intros l [E F]. split; [cbn; now rewrite E|now constructor].
Qed.
(** A program that answers a number of mean [v], for sure. *)
Definition sound (p : prog (res ext)) (v : R) : Prop := forall a b h, (forall x, h (Ok (Fin x)) = a * x + b) -> expect p h = a * v + b.
Lemma sound_value p v : sound p v -> forall junk, expect p (value junk) = v.
Proof. intros H junk. rewrite (H 1 0); [ring|]. intros x. cbn. ring. Qed.
Lemma sound_sequence ps vs : Forall2 sound ps vs -> forall a b h, (forall xs, h (Ok (map Fin xs)) = a * Rsum xs + b) -> expect (rdsequence ps) h = a * Rsum vs + b.
Proof.
  induction 1 as [|p v ps vs Hp _ IH]; intros a b h Hh; [exact (Hh [])|]. cbn [rdsequence]. unfold rdbind at 1. rewrite expect_bind.
  rewrite (Hp a (a * Rsum vs + b)); [unfold Rsum; cbn [fold_right]; ring|]. intros x. unfold rdbind. rewrite expect_bind.
  rewrite (IH a (a * x + b)); [ring|]. intros xs. cbn [expect]. change (Fin x :: map Fin xs) with (map Fin (x :: xs)). rewrite Hh. unfold Rsum. cbn [fold_right]. ring.
Qed.

Lemma dupdate_apart {V} (l : dict V) : forall d, NoDup (dkeys d ++ dkeys l) -> dupdate d l = d ++ l.
Proof.
  induction l as [|[k v] l IH]; intros d K; [now rewrite app_nil_r|]. unfold dupdate. cbn [fold_left fst snd]. change (dupdate (dset k v d) l = d ++ (k, v) :: l).
  cbn [dkeys map fst] in K. rewrite dset_fresh by (apply NoDup_remove_2 in K; rewrite in_app_iff in K; tauto). rewrite IH; [now rewrite <- app_assoc|]. unfold dkeys in *. rewrite map_app, <- app_assoc. exact K.
Qed.
Lemma NoDup_apart {A} (a b : list A) : NoDup a -> NoDup b -> (forall x, In x a -> ~ In x b) -> NoDup (a ++ b).
Proof.
  induction a as [|x a IH]; intros Na Nb D; [exact Nb|]. inversion Na as [|? ? N1 N2]; subst. cbn. constructor.
  - rewrite in_app_iff. intros [X|X]; [now apply N1|]. apply (D x); [now left|exact X].
  - apply IH; [exact N2|exact Nb|]. intros y Hy. apply D. now right.
Qed.
Lemma merged_apart' {V} (a b : dict V) : NoDup (dkeys a) -> NoDup (dkeys b) -> (forall k, In k (dkeys a) -> ~ In k (dkeys b)) -> merged a b = a ++ b.
Proof. intros Na Nb D. unfold merged. rewrite (dupdate_apart a []) by exact Na. cbn [app]. apply dupdate_apart. now apply NoDup_apart. Qed.

(* ------------------------------------------------------------------ *)
(** ** Laws *)
Section Laws.
  Variable V : Type.
  Variable eqb : V -> V -> bool.
  Hypothesis eqb_ok : forall a b, eqb a b = true <-> a = b.
  Variable P : list (dict V * R).
  Hypothesis HP : law V P.
  Notation prob := (prob V eqb P).
  Notation agrees := (agrees V eqb).
  Notation rows := (rows V eqb P).
  Notation mean := (mean V eqb P).
  Notation proj := (proj V).
  Notation given := (given V eqb P).
  Lemma agrees_app a b r : agrees (a ++ b) r = agrees a r && agrees b r.  Proof. apply forallb_app. Qed.
  Lemma agrees_proj vars r : agrees (proj vars r) r = true.
  Proof.
    induction vars as [|v vars IH]; [reflexivity|]. cbn [P46_MutualInfo.proj flat_map]. fold (proj vars r). rewrite agrees_app, IH, andb_true_r.
    destruct (dget v r) eqn:E; [|reflexivity]. unfold P46_MutualInfo.agrees. cbn [forallb fst snd]. rewrite E, andb_true_r. now apply eqb_ok.
  Qed.
  Lemma dget_proj vars r k : dget k (proj vars r) = if zmem k vars then dget k r else None.
  Proof.
    induction vars as [|v vars IH]; [reflexivity|]. cbn [P46_MutualInfo.proj flat_map zmem existsb]. fold (proj vars r). fold (zmem k vars). destruct (dget v r) eqn:E; cbn [app].
    - cbn [dget]. destruct (Z.eqb_spec k v) as [->|]; [cbn [orb]; now rewrite E|exact IH].
    - rewrite IH. destruct (Z.eqb_spec k v) as [->|]; [cbn [orb]; rewrite E; now destruct (zmem v vars)|reflexivity].
  Qed.
  Lemma proj_proj X T r : incl X T -> proj X (proj T r) = proj X r.
  Proof.
    induction X as [|x X IH]; intros H; [reflexivity|]. cbn [P46_MutualInfo.proj flat_map]. fold (proj X r). fold (proj X (proj T r)).
    rewrite dget_proj. assert (E : zmem x T = true) by (apply zmem_in, H; now left). rewrite E. f_equal. apply IH. intros y Hy. apply H. now right.
  Qed.
  Lemma proj_keys X r : incl (dkeys (proj X r)) X.
  Proof.
    induction X as [|x X IH]; [intros y []|]. cbn [P46_MutualInfo.proj flat_map]. fold (proj X r). destruct (dget x r); cbn [app dkeys map fst].
    - intros y [<-|Hy]; [now left|right; now apply IH].
    - intros y Hy. right. now apply IH.
  Qed.
  Lemma proj_all_keys X r : incl X (dkeys r) -> dkeys (proj X r) = X.
  Proof.
    induction X as [|x X IH]; intros H; [reflexivity|]. cbn [P46_MutualInfo.proj flat_map]. fold (proj X r). destruct (dget x r) eqn:E.
    - cbn [app dkeys map fst]. f_equal. apply IH. intros y Hy. apply H. now right.
    - apply dget_None_notin in E. exfalso. apply E, H. now left.
  Qed.
  Lemma pick_proj X s : NoDup X -> incl X (dkeys s) -> pick X s = Ok (proj X s).
  Proof.
    intros N H. unfold pick. replace (rsequence _) with (Ok (proj X s)).
    - cbn [rbind]. f_equal. assert (K : NoDup (dkeys (proj X s))) by (now rewrite proj_all_keys). exact (dupdate_apart (proj X s) [] K).
    - symmetry. apply rsequence_ok. clear N. induction X as [|x X IH]; [reflexivity|]. cbn [map P46_MutualInfo.proj flat_map]. fold (proj X s). destruct (dget x s) eqn:E.
      + cbn [app map]. f_equal. apply IH. intros y Hy. apply H. now right.
      + apply dget_None_notin in E. exfalso. apply E, H. now left.
  Qed.
  Lemma prob_rows c : prob c = Rsum (map snd (rows c)).
  Proof.
    unfold P46_MutualInfo.prob, P46_MutualInfo.rows. clear HP. induction P as [|e l IH]; [reflexivity|]. cbn [map filter]. unfold Rsum in *. cbn [fold_right]. rewrite IH. destruct (agrees c (fst e)); [reflexivity|apply Rplus_0_l].
  Qed.
  Lemma prob_pos c e : In e P -> agrees c (fst e) = true -> 0 < prob c.
  Proof.
    destruct HP as [F _]. rewrite Forall_forall in F. intros I A. rewrite prob_rows. assert (J : In e (rows c)) by (apply filter_In; auto).
    assert (G : forall l, (forall x, In x l -> 0 < snd x) -> In e l -> 0 < Rsum (map snd l)).
    { clear. induction l as [|x l IH]; intros H I; [destruct I|]. unfold Rsum. cbn [map fold_right]. fold (Rsum (map snd l)).
      assert (0 <= Rsum (map snd l)). { clear - H. induction l as [|y l IH]; [unfold Rsum; cbn; lra|]. unfold Rsum. cbn [map fold_right]. fold (Rsum (map snd l)). assert (0 < snd y) by (apply H; right; now left).
        assert (0 <= Rsum (map snd l)) by (apply IH; intros z [->|Hz]; apply H; [now left|right; now right]). lra. }
      assert (0 < snd x) by (apply H; now left). lra. }
    apply G; [|exact J]. intros x Hx. apply filter_In in Hx. apply F. tauto.
  Qed.
  Lemma prob_nil : prob [] = 1.
  Proof. destruct HP as [_ E]. rewrite prob_rows. unfold P46_MutualInfo.rows. cbn. rewrite <- E. f_equal. clear. induction P as [|e l IH]; [reflexivity|]. cbn. now rewrite IH. Qed.
  Lemma given_expect T c f : expect (given T c) f = mean c (fun r => f (proj T r)).
  Proof.
    unfold P46_MutualInfo.given, P46_MutualInfo.mean. cbn [expect]. rewrite <- prob_rows, map_length. f_equal.
    rewrite <- (map_nth_seq (fun e => snd e / prob c * f (proj T (fst e))) (rows c) ([], 0)). apply map_ext_in. intros i Hi. apply in_seq in Hi.
    change (@nil (Z * V)) with (fst (@nil (Z * V), 0)) at 1. change 0 with (snd (@nil (Z * V), 0)) at 1. rewrite !map_nth. reflexivity.
  Qed.
  Lemma given_proper T c : 0 < prob c -> proper (given T c).
  Proof.
    intros H. cbn. rewrite <- prob_rows. split; [|split; [exact H|intros; exact I]]. destruct HP as [F _]. rewrite Forall_forall in *. intros x Hx. apply in_map_iff in Hx. destruct Hx as (e & <- & He).
    apply filter_In in He. left. apply F. tauto.
  Qed.
  Lemma given_surely T c : surely (given T c) (fun s => exists e, In e P /\ agrees c (fst e) = true /\ s = proj T (fst e)).
  Proof.
    cbn. intros i Hi. rewrite map_length in Hi. exists (nth i (rows c) ([], 0)). assert (I : In (nth i (rows c) ([], 0)) (rows c)) by (now apply nth_In). apply filter_In in I.
    split; [tauto|]. split; [tauto|]. f_equal. change (@nil (Z * V)) with (fst (@nil (Z * V), 0)). now rewrite map_nth.
  Qed.
  Lemma mean_scal c k f : mean c (fun r => k * f r) = k * mean c f.
  Proof. unfold P46_MutualInfo.mean. rewrite <- Rsum_scal. apply Rsum_ext. intros e _. ring. Qed.
  Lemma mean_ext c f g : (forall e, In e P -> agrees c (fst e) = true -> f (fst e) = g (fst e)) -> mean c f = mean c g.
  Proof. intros H. apply Rsum_ext. intros e He. apply filter_In in He. rewrite H; tauto. Qed.

  Variable vars : list Z.
  Variable q : queries V.
  Hypothesis Hq : exact V eqb P vars q.
  Hypothesis Hv : defined V P vars.
  (** Samples and then a sum over them. *)
  Lemma sampled T c n r (k : list (dict V) -> res ext) g : r = None \/ r = Some (-1)%Z -> incl T vars -> 0 < prob c -> (0 < n)%nat ->
    (forall l, length l = n -> Forall (fun s => exists e, In e P /\ agrees c (fst e) = true /\ s = proj T (fst e)) l -> k l = Ok (Fin (Rsum (map g l) / INR n))) ->
    sound (rdbind (q_simulate q r T c n) (fun l => Ret (k l))) (mean c (fun r => g (proj T r))).
  Proof.
    intros Hr HT Hc Hn Hk a b h Hh. unfold rdbind. rewrite expect_bind, (ex_simulate V eqb P vars q Hq) by assumption. cbn [expect].
    rewrite (expect_ext _ _ (fun l => a / INR n * Rsum (map g l) + b) _ (surely_iid n _ _ (given_surely T c))).
    - rewrite expect_plus, expect_scal, expect_const by (apply proper_iid, given_proper, Hc). rewrite iid_sum by (apply given_proper, Hc). rewrite given_expect. field. apply not_0_INR. lia.
    - intros l [El Fl]. rewrite (Hk l El Fl), Hh. field. apply not_0_INR. lia.
  Qed.
  Lemma bulk_exact n l c : length l = n -> 0 < prob c -> Forall (fun t => incl (dkeys t) vars /\ 0 < prob (t ++ c)) l ->
    bulk q n l c = Ok (map Fin (map (fun t => ln (prob (t ++ c) / prob c)) l)).
  Proof.
    intros E Hc F. unfold bulk. rewrite E, Nat.eqb_refl. cbn [negb]. apply rsequence_ok. rewrite !map_map. apply map_ext_in. intros t Ht. rewrite Forall_forall in F. destruct (F t Ht). now apply (ex_logpdf V eqb P vars q Hq).
  Qed.
  Lemma pos_of e X c : In e P -> agrees c (fst e) = true -> 0 < prob (proj X (fst e) ++ c).
  Proof. intros I A. apply (prob_pos _ e I). now rewrite agrees_app, agrees_proj. Qed.
  Lemma picks_exact X T c l : NoDup X -> incl X T -> incl T vars -> Forall (fun s => exists e, In e P /\ agrees c (fst e) = true /\ s = proj T (fst e)) l ->
    picks X l = Ok (map (proj X) l) /\ Forall (fun t => incl (dkeys t) vars /\ 0 < prob (t ++ c)) (map (proj X) l).
  Proof.
    intros N XT TV F. rewrite Forall_forall in F. split.
    - unfold picks. apply rsequence_ok. rewrite map_map. apply map_ext_in. intros s Hs. destruct (F s Hs) as (e & I & A & ->). apply pick_proj; [exact N|]. rewrite proj_all_keys; [exact XT|]. intros v Hvv. apply (Hv e I). now apply TV.
    - rewrite Forall_forall. intros t Ht. apply in_map_iff in Ht. destruct Ht as (s & <- & Hs). destruct (F s Hs) as (e & I & A & ->). rewrite proj_proj by exact XT. split; [|now apply pos_of].
      intros v Hvv. apply proj_keys in Hvv. now apply TV, XT.
  Qed.
  Lemma Rsum_minus {A} (f g : A -> R) l : Rsum (map f l) - Rsum (map g l) = Rsum (map (fun x => f x - g x) l).
  Proof. unfold Rsum. induction l; cbn; [ring|]. rewrite <- IHl. ring. Qed.
  Lemma ediv_fin x n : (0 < n)%nat -> ediv (Fin x) (Fin (INR n)) = Fin (x / INR n).
  Proof. intros H. cbn. unfold Reqb. destruct (Req_EM_T (INR n) 0) as [E|]; [|reflexivity]. exfalso. revert E. apply not_0_INR. lia. Qed.
  Lemma mi_sound X Y c n : NoDup X -> NoDup Y -> incl X vars -> incl Y vars -> 0 < prob c -> (0 < n)%nat -> sound (compute_mi q X Y c n) (info V eqb P X Y c).
  Proof.
    intros NX NY HX HY Hc Hn.
    set (g := fun s => ln (prob (s ++ c) / prob c) - ln (prob (proj X s ++ c) / prob c) - ln (prob (proj Y s ++ c) / prob c)).
    assert (HT : incl (X ++ Y) vars) by (intros v; rewrite in_app_iff; intros [?|?]; auto).
    assert (I1 : incl X (X ++ Y)) by (intros v; rewrite in_app_iff; auto). assert (I2 : incl Y (X ++ Y)) by (intros v; rewrite in_app_iff; auto).
    replace (info V eqb P X Y c) with (mean c (fun r => g (proj (X ++ Y) r))).
    - apply sampled; [now left|exact HT|exact Hc|exact Hn|]. intros l El Fl.
      destruct (picks_exact X (X ++ Y) c l NX I1 HT Fl) as [E1 F1]. destruct (picks_exact Y (X ++ Y) c l NY I2 HT Fl) as [E2 F2].
      rewrite (bulk_exact n l c El Hc); [cbn [rbind]|].
      2:{ rewrite Forall_forall in *. intros t Ht. destruct (Fl t Ht) as (e & I & A & ->). split; [|now apply pos_of]. intros v Hvv. apply proj_keys in Hvv. now apply HT. }
      rewrite E1. cbn [rbind]. rewrite bulk_exact; [|now rewrite map_length|exact Hc|exact F1]. cbn [rbind]. rewrite E2. cbn [rbind]. rewrite bulk_exact; [|now rewrite map_length|exact Hc|exact F2]. cbn [rbind].
      rewrite !esum_fin, !map_map. change (esub (esub (Fin ?a) (Fin ?b)) (Fin ?c)) with (Fin (a + - b + - c)). rewrite ediv_fin by exact Hn. do 3 f_equal. unfold g.
      rewrite <- !Rsum_minus. ring.
    - apply mean_ext. intros e I A. unfold g. rewrite !proj_proj by assumption.
      assert (H1 := pos_of e (X ++ Y) c I A). assert (H2 := pos_of e X c I A). assert (H3 := pos_of e Y c I A).
      unfold Rdiv. rewrite !ln_mult by (try apply Rmult_lt_0_compat; try apply Rinv_0_lt_compat; try apply Rmult_lt_0_compat; assumption).
      rewrite !ln_Rinv by (try apply Rmult_lt_0_compat; assumption). rewrite ln_mult by assumption. ring.
  Qed.
  Lemma entropy_sound X Y c n : same_set X Y = true -> NoDup X -> incl X vars -> 0 < prob c -> (0 < n)%nat -> sound (compute_entropy q X Y c n) (entropy V eqb P X c).
  Proof.
    intros S NX HX Hc Hn. unfold compute_entropy. rewrite S. cbn [negb].
    set (g := fun s => - ln (prob (proj X s ++ c) / prob c)).
    replace (entropy V eqb P X c) with (mean c (fun r => g (proj X r))).
    - apply sampled; [now right|exact HX|exact Hc|exact Hn|]. intros l El Fl. destruct (picks_exact X X c l NX (incl_refl X) HX Fl) as [E1 F1].
      rewrite E1. cbn [rbind]. rewrite bulk_exact; [|now rewrite map_length|exact Hc|exact F1]. cbn [rbind]. rewrite esum_fin, map_map. change (eopp (Fin ?a)) with (Fin (- a)). rewrite ediv_fin by exact Hn. do 3 f_equal.
      unfold g. clear. unfold Rsum. induction l; cbn; [ring|]. rewrite <- IHl. ring.
    - apply mean_ext. intros e I A. unfold g. now rewrite proj_proj by apply incl_refl.
  Qed.

  (** Samples and then a program over them. *)
  Lemma sampled_then T c n r (k : list (dict V) -> prog (res ext)) g : r = None \/ r = Some (-1)%Z -> incl T vars -> 0 < prob c -> (0 < n)%nat ->
    (forall l, length l = n -> Forall (fun s => exists e, In e P /\ agrees c (fst e) = true /\ s = proj T (fst e)) l -> sound (k l) (Rsum (map g l) / INR n)) ->
    sound (rdbind (q_simulate q r T c n) k) (mean c (fun r => g (proj T r))).
  Proof.
    intros Hr HT Hc Hn Hk a b h Hh. unfold rdbind. rewrite expect_bind, (ex_simulate V eqb P vars q Hq) by assumption.
    rewrite (expect_ext _ _ (fun l => a / INR n * Rsum (map g l) + b) _ (surely_iid n _ _ (given_surely T c))).
    - rewrite expect_plus, expect_scal, expect_const by (apply proper_iid, given_proper, Hc). rewrite iid_sum by (apply given_proper, Hc). rewrite given_expect. field. apply not_0_INR. lia.
    - intros l [El Fl]. rewrite (Hk l El Fl a b h Hh). field. apply not_0_INR. lia.
  Qed.
  Definition goal_of (same : bool) (X Y : list Z) (c : dict V) : R := if same then entropy V eqb P X c else info V eqb P X Y c.
  Lemma or_100_pos n : (0 < or_100 n)%nat.
  Proof. destruct n as [[|n]|]; cbn; lia. Qed.
  Lemma estimator_sound X Y c n : NoDup X -> NoDup Y -> incl X vars -> incl Y vars -> 0 < prob c -> (0 < n)%nat ->
    sound ((if negb (same_set X Y) then compute_mi q else compute_entropy q) X Y c n) (goal_of (same_set X Y) X Y c).
  Proof. intros. unfold goal_of. destruct (same_set X Y) eqn:S; cbn [negb]; [now apply entropy_sound|now apply mi_sound]. Qed.
  Lemma constraints_split (C : dict (option V)) : NoDup (dkeys C) -> NoDup (dkeys (equalities C)) /\ NoDup (margins C) /\ incl (dkeys (equalities C)) (dkeys C) /\ incl (margins C) (dkeys C) /\
    (forall k, In k (dkeys (equalities C)) -> ~ In k (margins C)).
  Proof.
    induction C as [|[k o] C IH]; intros N; [repeat split; try constructor; try (intros ? []); intros ? _ []|]. cbn [dkeys map fst] in N. inversion N as [|? ? N1 N2]; subst. destruct (IH N2) as (A & B & C1 & C2 & D).
    cbn [equalities margins flat_map fst snd]. fold (equalities C). fold (margins C). destruct o as [x|]; cbn [app dkeys map fst].
    - split; [constructor; [intros X; apply N1, C1, X|exact A]|]. split; [exact B|]. split; [intros y [<-|Hy]; [now left|right; now apply C1]|]. split; [intros y Hy; right; now apply C2|].
      intros y [<-|Hy]; [intros X; apply N1, C2, X|now apply D].
    - split; [exact A|]. split; [constructor; [intros X; apply N1, C2, X|exact B]|]. split; [intros y Hy; right; now apply C1|]. split; [intros y [<-|Hy]; [now left|right; now apply C2]|].
      intros y Hy [<-|X]; [apply N1, C1, Hy|now apply (D y)].
  Qed.
  (** The mean of what a block is asked for, the constraints without a value drawn from their own law. *)
  Definition block_mean (same : bool) (X Y : list Z) (C : dict (option V)) : R := mean [] (fun r => goal_of same X Y (equalities C ++ proj (margins C) r)).
  Lemma mean_const k : mean [] (fun _ => k) = k.
  Proof.
    unfold P46_MutualInfo.mean. rewrite prob_nil. transitivity (k * Rsum (map snd (rows []))); [rewrite <- Rsum_scal; apply Rsum_ext; intros; field|]. rewrite <- prob_rows, prob_nil. ring.
  Qed.
  Lemma block_sound X Y C T N : NoDup X -> NoDup Y -> NoDup (dkeys C) -> incl X vars -> incl Y vars -> incl (dkeys C) vars ->
    (forall e, In e P -> 0 < prob (equalities C ++ proj (margins C) (fst e))) -> sound (compute_block q X Y C T N) (block_mean (same_set X Y) X Y C).
  Proof.
    intros NX NY NC HX HY HC Hpos. destruct (constraints_split C NC) as (N1 & N2 & I1 & I2 & D). unfold block_mean, compute_block. destruct (margins C) as [|m0 ms] eqn:Em.
    - rewrite (mean_ext _ _ (fun _ => goal_of (same_set X Y) X Y (equalities C))) by (intros e _ _; cbn [P46_MutualInfo.proj flat_map]; now rewrite app_nil_r). rewrite mean_const.
      apply estimator_sound; try assumption; [|apply or_100_pos]. destruct HP as [_ E]. destruct P as [|e l] eqn:EP; [unfold Rsum in E; cbn in E; lra|].
      specialize (Hpos e (or_introl eq_refl)). cbn [P46_MutualInfo.proj flat_map] in Hpos. now rewrite app_nil_r in Hpos.
    - rewrite <- Em in *. clear Em m0 ms. apply (sampled_then _ [] _ None _ (fun s => goal_of (same_set X Y) X Y (equalities C ++ s))); [now left|intros v Hvv; now apply HC, I2|rewrite prob_nil; lra|apply or_100_pos|].
      intros l El Fl a b h Hh. unfold rdbind. rewrite expect_bind.
      rewrite (sound_sequence _ (map (fun s => goal_of (same_set X Y) X Y (equalities C ++ s)) l)) with (a := a / INR (or_100 T)) (b := b).
      + field. apply not_0_INR. pose proof (or_100_pos T). lia.
      + clear El. induction Fl as [|s l (e & I & _ & ->) _ IH]; [constructor|]. cbn [map]. constructor; [|exact IH].
        assert (K : dkeys (proj (margins C) (fst e)) = margins C) by (apply proj_all_keys; intros v Hvv; apply (Hv e I); now apply HC, I2).
        rewrite merged_apart'; [|exact N1|rewrite K; exact N2|rewrite K; exact D]. apply estimator_sound; try assumption; [now apply Hpos|apply or_100_pos].
      + intros xs. cbn [expect]. rewrite esum_fin, ediv_fin by apply or_100_pos. rewrite Hh. field. apply not_0_INR. pose proof (or_100_pos T). lia.
  Qed.
End Laws.

(* ------------------------------------------------------------------ *)
(** ** How the query is split *)
Section Split.
  Variable V : Type.
  Variable comp : Z -> Z.
  Definition at_ (k : Z) (l : list Z) : list Z := filter (fun v => Z.eqb (comp v) k) l.
  Definition cat_ (k : Z) (C : dict (option V)) : dict (option V) := filter (fun e => Z.eqb (comp (fst e)) k) C.
  Definition split_ok (A B : list Z) (C : dict (option V)) (bs : dict (block V)) : Prop :=
    NoDup (dkeys bs) /\ forall k, dget k bs = if zmem k (map comp (A ++ B ++ dkeys C)) then Some (at_ k A, at_ k B, cat_ k C) else None.
  Lemma at_app k A B : at_ k (A ++ B) = at_ k A ++ at_ k B.  Proof. apply filter_app. Qed.
  Lemma at_one k v : at_ k [v] = if Z.eqb (comp v) k then [v] else [].  Proof. cbn. destruct (Z.eqb (comp v) k); reflexivity. Qed.
  Lemma at_none k A : ~ In k (map comp A) -> at_ k A = [].
  Proof.
    induction A as [|v A IH]; intros H; [reflexivity|]. cbn in *. destruct (Z.eqb_spec (comp v) k); [tauto|]. apply IH. tauto.
  Qed.
  Lemma cat_none k C : ~ In k (map comp (dkeys C)) -> cat_ k C = [].
  Proof. induction C as [|e C IH]; intros H; [reflexivity|]. cbn in *. destruct (Z.eqb_spec (comp (fst e)) k); [tauto|]. apply IH. tauto. Qed.
  Lemma touched bs A B C k0 f A' B' C' : split_ok A B C bs ->
    (forall k, In k (map comp (A' ++ B' ++ dkeys C')) <-> k = k0 \/ In k (map comp (A ++ B ++ dkeys C))) ->
    f (at_ k0 A, at_ k0 B, cat_ k0 C) = (at_ k0 A', at_ k0 B', cat_ k0 C') ->
    (forall k, k <> k0 -> (at_ k A, at_ k B, cat_ k C) = (at_ k A', at_ k B', cat_ k C')) ->
    split_ok A' B' C' (touch k0 f bs).
  Proof.
    intros [N H] HI Hf Ho. split; [now apply NoDup_dset|]. intros k. unfold touch. rewrite dget_dset. destruct (Z.eqb_spec k k0) as [->|D].
    - replace (zmem k0 _) with true by (symmetry; apply zmem_in, HI; now left). f_equal. rewrite <- Hf. f_equal. rewrite H. destruct (zmem k0 _) eqn:M; [reflexivity|].
      rewrite <- not_true_iff_false, zmem_in, !map_app, !in_app_iff in M. rewrite !at_none, cat_none by tauto. reflexivity.
    - rewrite H, Ho by exact D. replace (zmem k (map comp (A' ++ B' ++ dkeys C'))) with (zmem k (map comp (A ++ B ++ dkeys C))); [reflexivity|]. apply eq_true_iff_eq. rewrite !zmem_in, HI. tauto.
  Qed.
  Variable component : Z -> res Z.
  Lemma fold0 A : (forall v, In v A -> component v = Ok (comp v)) -> exists bs, fold_left (add0 component) A (Ok []) = Ok bs /\ split_ok A [] [] bs.
  Proof.
    induction A as [|v A IH] using rev_ind; intros H.
    - exists []. split; [reflexivity|]. split; [constructor|reflexivity].
    - destruct IH as (bs & E & S); [intros; apply H; apply in_app_iff; now left|]. rewrite fold_left_app, E. cbn [fold_left add0 rbind]. rewrite H by (apply in_app_iff; right; now left). cbn [rbind].
      eexists. split; [reflexivity|]. apply (touched _ _ _ _ _ _ _ _ _ S).
      + intros k. rewrite !app_nil_r, map_app, in_app_iff. cbn. firstorder.
      + rewrite at_app, at_one, Z.eqb_refl. reflexivity.
      + intros k D. rewrite at_app, at_one. destruct (Z.eqb_spec (comp v) k); [congruence|]. now rewrite app_nil_r.
  Qed.
  Lemma fold1 A bs0 : split_ok A [] [] bs0 -> forall B, (forall v, In v B -> component v = Ok (comp v)) -> exists bs, fold_left (add1 component) B (Ok bs0) = Ok bs /\ split_ok A B [] bs.
  Proof.
    intros S0. induction B as [|v B IH] using rev_ind; intros H; [now exists bs0|].
    destruct IH as (bs & E & S); [intros; apply H; apply in_app_iff; now left|]. rewrite fold_left_app, E. cbn [fold_left add1 rbind]. rewrite H by (apply in_app_iff; right; now left). cbn [rbind].
    eexists. split; [reflexivity|]. apply (touched _ _ _ _ _ _ _ _ _ S).
    + intros k. rewrite !app_nil_r, !map_app, !in_app_iff. cbn. firstorder.
    + rewrite at_app, at_one, Z.eqb_refl. reflexivity.
    + intros k D. rewrite at_app, at_one. destruct (Z.eqb_spec (comp v) k); [congruence|]. now rewrite app_nil_r.
  Qed.
  Lemma fold2 A B bs0 : split_ok A B [] bs0 -> forall C, NoDup (dkeys C) -> (forall v, In v (dkeys C) -> component v = Ok (comp v)) -> exists bs, fold_left (add2 component) C (Ok bs0) = Ok bs /\ split_ok A B C bs.
  Proof.
    intros S0. induction C as [|[v o] C IH] using rev_ind; intros N H; [now exists bs0|]. unfold dkeys in N, H. rewrite map_app in N, H. cbn [map fst] in N, H. apply NoDup_remove in N. rewrite app_nil_r in N.
    destruct IH as (bs & E & S); [tauto|intros; apply H; apply in_app_iff; now left|]. rewrite fold_left_app, E. cbn [fold_left add2 rbind fst snd]. rewrite H by (apply in_app_iff; right; now left). cbn [rbind].
    eexists. split; [reflexivity|]. apply (touched _ _ _ _ _ _ _ _ _ S).
    + intros k. unfold dkeys. rewrite !map_app, !in_app_iff. cbn. firstorder.
    + cbn. f_equal. unfold cat_. rewrite filter_app. cbn [filter fst]. rewrite Z.eqb_refl. apply dset_fresh. intros X. unfold dkeys in X. apply in_map_iff in X. destruct X as (e & Ee & He). apply filter_In in He. apply N. rewrite <- Ee. apply in_map, He.
    + intros k D. f_equal. unfold cat_. rewrite filter_app. cbn [filter fst]. destruct (Z.eqb_spec (comp v) k); [congruence|]. now rewrite app_nil_r.
  Qed.
  Lemma partition_ok A B C : NoDup (dkeys C) -> (forall v, In v (A ++ B ++ dkeys C) -> component v = Ok (comp v)) ->
    exists bs, partition_query component A B C = Ok bs /\ split_ok A B C bs.
  Proof.
    intros N H. unfold partition_query. destruct (fold0 A) as (b0 & E0 & S0); [intros; apply H; rewrite !in_app_iff; tauto|]. rewrite E0.
    destruct (fold1 A b0 S0 B) as (b1 & E1 & S1); [intros; apply H; rewrite !in_app_iff; tauto|]. rewrite E1.
    apply (fold2 A B b1 S1 C N). intros; apply H; rewrite !in_app_iff; tauto.
  Qed.
End Split.

(* ------------------------------------------------------------------ *)
(** ** The query *)
(** Some component has the variable as an output. *)
Definition known (cgpms : list sig) (v : Z) : Prop := exists i, output_of cgpms i v.
(** Python walks a dictionary in some order. *)
Definition some_walk (order : list Z -> list Z) : Prop := forall l, NoDup l -> Permutation (order l) l.
(** A component has an output of another one as an input; two components are connected, in whatever direction. *)
Definition feeds (cgpms : list sig) (i j : Z) : Prop := (0 <= j < Z.of_nat (length cgpms))%Z /\ exists v, In v (g_inputs (sig_at cgpms j)) /\ output_of cgpms i v.
Definition linked (cgpms : list sig) : Z -> Z -> Prop := clos_refl_sym_trans Z (feeds cgpms).
(** scipy labels the parts of the graph that are connected. *)
Definition labels_ok (cgpms : list sig) (labels : Z -> Z) : Prop :=
  forall i j, (0 <= i < Z.of_nat (length cgpms))%Z -> (0 <= j < Z.of_nat (length cgpms))%Z ->
    (labels i = labels j <-> clos_refl_sym_trans Z (fun i j => In (i, j) (edges cgpms)) i j).
(** The label of the component that has the variable as an output. *)
Definition part_of (cgpms : list sig) (labels comp : Z -> Z) : Prop := forall v i, output_of cgpms i v -> comp v = labels i.
Lemma component_known cgpms labels comp v : disjoint_outputs cgpms -> part_of cgpms labels comp -> known cgpms v -> component_of cgpms labels v = Ok (comp v).
Proof. intros D H [i Hi]. unfold component_of. rewrite (proj2 (variable_to_cgpm_get cgpms D v i) Hi). f_equal. symmetry. now apply H. Qed.
Lemma component_unknown cgpms labels v : disjoint_outputs cgpms -> ~ known cgpms v -> component_of cgpms labels v = Err KeyError.
Proof. intros D H. unfold component_of. destruct (dget v (variable_to_cgpm cgpms)) as [i|] eqn:E; [|reflexivity]. exfalso. apply H. exists i. now apply variable_to_cgpm_get. Qed.

(** The edges given to scipy. *)
Theorem C70_edges : forall cgpms, disjoint_outputs cgpms -> forall i j, In (i, j) (edges cgpms) <-> feeds cgpms i j.
Proof.
  intros cgpms D i j. unfold edges, feeds. rewrite in_concat. assert (N : NoDup (dkeys (adjacency_list cgpms (variable_to_cgpm cgpms)))) by (rewrite dkeys_adjacency; apply NoDup_indices).
  split.
  - intros (l & Hl & Hi). apply in_map_iff in Hl. destruct Hl as ([k e] & <- & He). cbn [fst snd] in Hi. apply in_map_iff in Hi. destruct Hi as (i' & E & Hi). injection E as -> ->.
    apply dget_In_NoDup in He; [|exact N]. destruct (adjacency_get cgpms j e D He) as [H1 H2]. split; [exact H1|]. now apply H2.
  - intros [Hj H]. destruct (dget j (adjacency_list cgpms (variable_to_cgpm cgpms))) as [e|] eqn:E.
    + exists (map (fun i => (i, j)) e). split; [|apply in_map_iff; exists i; split; [reflexivity|]; now apply (adjacency_get cgpms j e D E)].
      apply in_map_iff. exists (j, e). split; [reflexivity|]. now apply dget_In.
    + exfalso. apply dget_None_notin in E. apply E. rewrite dkeys_adjacency. now apply in_indices.
Qed.
Print Assumptions C70_edges.

Lemma fold_bad {A B} (f : res B -> A -> res B) (bad : A -> Prop) :
  (forall x, f (Err KeyError) x = Err KeyError) -> (forall b x, bad x -> f (Ok b) x = Err KeyError) ->
  (forall b x, f (Ok b) x = Err KeyError \/ exists b', f (Ok b) x = Ok b') ->
  forall l s, (s = Err KeyError \/ exists b, s = Ok b) ->
    (fold_left f l s = Err KeyError \/ exists b, fold_left f l s = Ok b) /\ (s = Err KeyError \/ (exists x, In x l /\ bad x) -> fold_left f l s = Err KeyError).
Proof.
  intros H1 H2 H3. induction l as [|x l IH]; intros s Hs.
  - split; [exact Hs|]. intros [E|(x & [] & _)]. exact E.
  - cbn [fold_left]. assert (Hs' : f s x = Err KeyError \/ exists b, f s x = Ok b) by (destruct Hs as [->|[b ->]]; [left; apply H1|apply H3]).
    destruct (IH _ Hs') as [I1 I2]. split; [exact I1|]. intros [->|(y & [<-|Hy] & By)]; apply I2.
    + left. apply H1.
    + left. destruct Hs as [->|[b ->]]; [apply H1|now apply H2].
    + right. now exists y.
Qed.
Lemma partition_unknown V cgpms labels A B (C : dict (option V)) : disjoint_outputs cgpms -> (exists v, In v (A ++ B ++ dkeys C) /\ ~ known cgpms v) -> partition_query (component_of cgpms labels) A B C = Err KeyError.
Proof.
  intros D. set (cf := component_of cgpms labels).
  assert (U : forall v, ~ known cgpms v -> cf v = Err KeyError) by (intros v H; now apply component_unknown).
  assert (K : forall v, cf v = Err KeyError \/ exists k, cf v = Ok k). { intros v. unfold cf, component_of. destruct (dget v _); eauto. }
  intros (v & Hv & Hb). unfold partition_query.
  destruct (fold_bad (add0 (V := V) cf) (fun v => ~ known cgpms v)) with (l := A) (s := Ok (@nil (Z * block V))) as [A1 A2].
  { reflexivity. } { intros b x Hx. cbn. now rewrite (U x Hx). } { intros b x. cbn. destruct (K x) as [->|[k ->]]; cbn; eauto. } { eauto. }
  destruct (fold_bad (add1 (V := V) cf) (fun v => ~ known cgpms v)) with (l := B) (s := fold_left (add0 (V := V) cf) A (Ok [])) as [B1 B2].
  { reflexivity. } { intros b x Hx. cbn. now rewrite (U x Hx). } { intros b x. cbn. destruct (K x) as [->|[k ->]]; cbn; eauto. } { exact A1. }
  destruct (fold_bad (add2 (V := V) cf) (fun e => ~ known cgpms (fst e))) with (l := C) (s := fold_left (add1 (V := V) cf) B (fold_left (add0 (V := V) cf) A (Ok []))) as [C1 C2].
  { reflexivity. } { intros b x Hx. cbn. now rewrite (U _ Hx). } { intros b x. cbn. destruct (K (fst x)) as [->|[k ->]]; cbn; eauto. } { exact B1. }
  apply C2. rewrite !in_app_iff in Hv. destruct Hv as [Hv|[Hv|Hv]].
  - left. apply B2. left. apply A2. right. eauto.
  - left. apply B2. right. eauto.
  - right. unfold dkeys in Hv. apply in_map_iff in Hv. destruct Hv as (e & <- & He). eauto.
Qed.
Lemma same_set_iff A B : same_set A B = true <-> forall v, In v A <-> In v B.
Proof.
  unfold same_set. rewrite andb_true_iff, !forallb_forall. split.
  - intros [H1 H2] v. split; intros H; apply zmem_in; auto.
  - intros H. split; intros v Hv; apply zmem_in; now apply H.
Qed.
(** The targets are apart from the constraints, and from each other unless they are the same. *)
Definition well_posed {V} (A B : list Z) (C : dict V) : Prop :=
  (forall v, In v (A ++ B) -> ~ In v (dkeys C)) /\ ((forall v, In v A -> ~ In v B) \/ (forall v, In v A <-> In v B)).
Lemma accepted V (q : queries V) cgpms labels order A B C T N : well_posed A B C ->
  mutual_information q cgpms labels order A B C T N =
  match partition_query (component_of cgpms labels) A B C with
  | Err e => Ret (Err e)
  | Ok bs => rdbind (rdsequence (map (fun '(c0, c1, const) => compute_block q c0 c1 const T N)
               (filter (fun '(c0, c1, const) => negb (is_empty c0) && negb (is_empty c1)) (flat_map (fun k => match dget k bs with Some b => [b] | None => [] end) (order (dkeys bs)))))) (fun l => Ret (Ok (esum l)))
  end.
Proof.
  intros [H1 H2]. unfold mutual_information. replace (existsb (fun c => dmem c C) (A ++ B)) with false.
  2:{ symmetry. apply not_true_iff_false. rewrite existsb_exists. intros (v & X & Y). rewrite dmem_in in Y. exact (H1 v X Y). }
  replace (existsb (fun c => zmem c B) A && negb (same_set A B)) with false; [reflexivity|]. symmetry. apply andb_false_iff. destruct H2 as [H2|H2].
  - left. apply not_true_iff_false. rewrite existsb_exists. intros (v & X & Y). apply zmem_in in Y. exact (H2 v X Y).
  - right. apply negb_false_iff. now apply same_set_iff.
Qed.

(** A target that is also constrained, or targets that overlap without being the same, are refused with a ValueError; then an unknown variable with a KeyError. *)
Theorem C70_refused : forall V (q : queries V) cgpms labels order A B C T N,
  ((exists v, In v (A ++ B) /\ In v (dkeys C)) -> mutual_information q cgpms labels order A B C T N = Ret (Err ValueError)) /\
  ((exists v, In v A /\ In v B) -> (exists v, ~ (In v A <-> In v B)) -> mutual_information q cgpms labels order A B C T N = Ret (Err ValueError)) /\
  (disjoint_outputs cgpms -> well_posed A B C -> (exists v, In v (A ++ B ++ dkeys C) /\ ~ known cgpms v) -> mutual_information q cgpms labels order A B C T N = Ret (Err KeyError)).
Proof.
  intros V q cgpms labels order A B C T N. split; [|split].
  - intros (v & H1 & H2). unfold mutual_information. replace (existsb _ (A ++ B)) with true; [reflexivity|]. symmetry. apply existsb_exists. exists v. split; [exact H1|]. now apply dmem_in.
  - intros (v & H1 & H2) [w Hw]. unfold mutual_information. destruct (existsb (fun c => dmem c C) (A ++ B)); [reflexivity|]. replace (existsb _ A) with true.
    + destruct (same_set A B) eqn:S; [|reflexivity]. exfalso. apply Hw. rewrite same_set_iff in S. apply S.
    + symmetry. apply existsb_exists. exists v. split; [exact H1|]. now apply zmem_in.
  - intros D H1 H2. rewrite accepted by exact H1. now rewrite partition_unknown.
Qed.
Print Assumptions C70_refused.

Lemma blocks_of V cgpms labels comp order A B (C : dict (option V)) : disjoint_outputs cgpms -> part_of cgpms labels comp -> NoDup (dkeys C) -> (forall v, In v (A ++ B ++ dkeys C) -> known cgpms v) -> some_walk order ->
  exists bs ks, partition_query (component_of cgpms labels) A B C = Ok bs /\ NoDup ks /\
    (forall k, In k ks <-> exists u v, In u A /\ In v B /\ comp u = k /\ comp v = k) /\
    filter (fun '(c0, c1, const) => negb (is_empty c0) && negb (is_empty c1)) (flat_map (fun k => match dget k bs with Some b => [b] | None => [] end) (order (dkeys bs)))
    = map (fun k => (at_ comp k A, at_ comp k B, cat_ V comp k C)) ks.
Proof.
  intros D HC NC HK HW. destruct (partition_ok V comp (component_of cgpms labels) A B C NC) as (bs & E & N & S); [intros v Hv; now apply component_known; [| |apply HK]|].
  assert (Ne : forall k l, is_empty (at_ comp k l) = false <-> exists v, In v l /\ comp v = k).
  { intros k l. split.
    - intros H. destruct (at_ comp k l) as [|v l'] eqn:X; [discriminate|]. exists v. assert (I : In v (at_ comp k l)) by (rewrite X; now left). apply filter_In in I. rewrite Z.eqb_eq in I. exact I.
    - intros (v & I & F). assert (J : In v (at_ comp k l)) by (apply filter_In; rewrite Z.eqb_eq; auto). destruct (at_ comp k l); [destruct J|reflexivity]. }
  exists bs, (filter (fun k => negb (is_empty (at_ comp k A)) && negb (is_empty (at_ comp k B))) (order (dkeys bs))).
  assert (PW := HW _ N). assert (IK : forall k, In k (order (dkeys bs)) <-> In k (dkeys bs)) by (intros k; split; apply Permutation_in; [exact PW|now apply Permutation_sym]).
  split; [exact E|]. split; [|split].
  - apply NoDup_filter. apply (Permutation_NoDup (l := dkeys bs)); [now apply Permutation_sym|exact N].
  - intros k. rewrite filter_In, IK, andb_true_iff, !negb_true_iff, !Ne. split.
    + intros (_ & (u & H1 & H2) & v & H3 & H4). exists u, v. auto.
    + intros (u & v & H1 & H2 & H3 & H4). split; [|split; [exists u|exists v]; auto]. specialize (S k). replace (zmem k (map comp (A ++ B ++ dkeys C))) with true in S.
      * destruct (in_dec Z.eq_dec k (dkeys bs)) as [I|I]; [exact I|]. apply dget_None_notin in I. congruence.
      * symmetry. apply zmem_in. rewrite <- H3. apply in_map. rewrite in_app_iff. now left.
  - assert (IK' : forall k, In k (order (dkeys bs)) -> In k (dkeys bs)) by (intros k; apply IK). revert IK'. generalize (order (dkeys bs)) as ks. induction ks as [|k ks IH]; intros IK'; [reflexivity|].
    change (flat_map ?f (k :: ks)) with (f k ++ flat_map f ks). rewrite filter_app. etransitivity; [apply f_equal; exact (IH (fun x H => IK' x (or_intror H)))|]. assert (Dk := S k). destruct (dget k bs) as [b|] eqn:Eb; [|apply dget_None_notin in Eb; exfalso; apply Eb, IK'; now left].
    destruct (zmem k _); [|discriminate]. injection Dk as ->. cbn [filter]. destruct (negb _ && negb _); reflexivity.
Qed.

(** If no variable of the one is connected to a variable of the other then the answer is zero. *)
Theorem C70_apart : forall V (q : queries V) cgpms labels order A B C T N,
  disjoint_outputs cgpms -> labels_ok cgpms labels -> some_walk order -> well_posed A B C -> NoDup (dkeys C) -> (forall v, In v (A ++ B ++ dkeys C) -> known cgpms v) ->
  (forall u v i j, In u A -> In v B -> output_of cgpms i u -> output_of cgpms j v -> ~ linked cgpms i j) ->
  mutual_information q cgpms labels order A B C T N = Ret (Ok (Fin 0)).
Proof.
  intros V q cgpms labels order A B C T N D HL HW HP NC HK HA. rewrite accepted by exact HP.
  set (comp := fun v => match dget v (variable_to_cgpm cgpms) with Some i => labels i | None => 0%Z end).
  assert (HC : part_of cgpms labels comp) by (intros v i Hi; unfold comp; now rewrite (proj2 (variable_to_cgpm_get cgpms D v i) Hi)).
  destruct (blocks_of V cgpms labels comp order A B C D HC NC HK HW) as (bs & ks & E & _ & M & F). rewrite E, F.
  destruct ks as [|k ks]; [reflexivity|]. exfalso. destruct (proj1 (M k) (or_introl eq_refl)) as (u & v & Hu & Hv & E1 & E2).
  destruct (HK u) as [i Hi]; [rewrite in_app_iff; auto|]. destruct (HK v) as [j Hj]; [rewrite !in_app_iff; auto|].
  apply (HA u v i j Hu Hv Hi Hj). rewrite (HC u i Hi) in E1. rewrite (HC v j Hj) in E2.
  assert (X : clos_refl_sym_trans Z (fun i j => In (i, j) (edges cgpms)) i j) by (apply HL; [apply Hi|apply Hj|congruence]).
  clear - X D. unfold linked. induction X as [x y H|x|x y _ IH|x y z _ IH1 _ IH2]; [apply rst_step; now apply C70_edges|apply rst_refl|now apply rst_sym|now apply (rst_trans _ _ _ y)].
Qed.
Print Assumptions C70_apart.

(** Otherwise the mean of the answer is the sum, over the connected parts that hold variables of both, of what the part is asked for. *)
Theorem C70_query : forall V eqb (P : list (dict V * R)) vars q cgpms labels comp order A B C T N junk ks,
  (forall a b, eqb a b = true <-> a = b) -> law V P -> exact V eqb P vars q -> defined V P vars ->
  disjoint_outputs cgpms -> part_of cgpms labels comp -> some_walk order -> well_posed A B C -> NoDup A -> NoDup B -> NoDup (dkeys C) ->
  (forall v, In v (A ++ B ++ dkeys C) -> known cgpms v) -> incl (A ++ B ++ dkeys C) vars ->
  (forall k e, In e P -> 0 < prob V eqb P (equalities (cat_ V comp k C) ++ proj V (margins (cat_ V comp k C)) (fst e))) ->
  NoDup ks -> (forall k, In k ks <-> exists u v, In u A /\ In v B /\ comp u = k /\ comp v = k) ->
  expect (mutual_information q cgpms labels order A B C T N) (value junk) =
  Rsum (map (fun k => block_mean V eqb P (same_set A B) (at_ comp k A) (at_ comp k B) (cat_ V comp k C)) ks).
Proof.
  intros V eqb P vars q cgpms labels comp order A B C T N junk ks He HP Hq Hd D0 HC HW HWP NA NB NC HK HI Hpos Nk Hk. rewrite accepted by exact HWP.
  destruct (blocks_of V cgpms labels comp order A B C D0 HC NC HK HW) as (bs & ks' & E & N' & M & F). rewrite E, F.
  assert (PK : Permutation ks' ks) by (apply NoDup_Permutation; [exact N'|exact Nk|intros k; rewrite M; symmetry; apply Hk]).
  transitivity (Rsum (map (fun k => block_mean V eqb P (same_set A B) (at_ comp k A) (at_ comp k B) (cat_ V comp k C)) ks')).
  2:{ clear - PK. induction PK; unfold Rsum in *; cbn [map fold_right]; lra. }
  apply sound_value. rewrite map_map. intros a b h Hh. unfold rdbind. rewrite expect_bind. apply sound_sequence.
  2:{ intros xs. cbn [expect]. rewrite esum_fin. apply Hh. }
  assert (G : forall k, In k ks' -> sound (compute_block q (at_ comp k A) (at_ comp k B) (cat_ V comp k C) T N) (block_mean V eqb P (same_set A B) (at_ comp k A) (at_ comp k B) (cat_ V comp k C))).
  { intros k Ik. replace (same_set A B) with (same_set (at_ comp k A) (at_ comp k B)).
    - apply (block_sound V eqb He P HP vars q Hq Hd).
      + now apply NoDup_filter.
      + now apply NoDup_filter.
      + clear - NC. unfold cat_, dkeys in *. induction C as [|e C IH]; [constructor|]. cbn in *. inversion NC as [|? ? N1 N2]; subst. destruct (Z.eqb _ _); [|now apply IH]. cbn. constructor; [|now apply IH].
        intros X. apply N1. apply in_map_iff in X. destruct X as (e' & E & I). apply filter_In in I. rewrite <- E. apply in_map, I.
      + intros v Hv. apply filter_In in Hv. apply HI. rewrite in_app_iff. tauto.
      + intros v Hv. apply filter_In in Hv. apply HI. rewrite !in_app_iff. tauto.
      + intros v Hv. apply HI. rewrite !in_app_iff. right; right. unfold cat_, dkeys in *. apply in_map_iff in Hv. destruct Hv as (e' & <- & I). apply filter_In in I. apply in_map, I.
      + intros e Ie. now apply Hpos.
    - apply M in Ik. destruct Ik as (u & v & Hu & Hv & Cu & Cv). apply eq_true_iff_eq. rewrite !same_set_iff. destruct HWP as [_ [D|S]].
      + split; intros H; exfalso; apply (D u Hu).
        * assert (I : In u (at_ comp k A)) by (apply filter_In; rewrite Z.eqb_eq; auto). apply H, filter_In in I. tauto.
        * now apply H.
      + split; intros _; [exact S|]. intros w. unfold at_. rewrite !filter_In. now rewrite S. }
  clear - G. induction ks' as [|k ks' IH]; [constructor|]. cbn [map]. constructor; [apply G; now left|]. apply IH. intros. apply G. now right.
Qed.
Print Assumptions C70_query.

(* ------------------------------------------------------------------ *)
(** ** The estimators *)
(** The queries of a law, answered from the law. *)
Definition own {V} (eqb : V -> V -> bool) (P : list (dict V * R)) : queries V :=
  Queries (fun _ T c n => pbind (iid n (given V eqb P T c)) (fun l => Ret (Ok l)))
          (fun _ t c => Ok (Fin (ln (prob V eqb P (t ++ c) / prob V eqb P c)))).
Lemma own_exact V eqb (P : list (dict V * R)) vars : exact V eqb P vars (own eqb P).
Proof. split; intros; [|reflexivity]. cbn. rewrite expect_bind. reflexivity. Qed.

(** Apart from the sampling error an estimate is the mutual information, or the entropy, given the constraints: no matter how many samples. *)
Theorem C70_estimators : forall V eqb (P : list (dict V * R)) vars q X Y c n junk,
  (forall a b, eqb a b = true <-> a = b) -> law V P -> exact V eqb P vars q -> defined V P vars ->
  NoDup X -> NoDup Y -> incl (X ++ Y) vars -> 0 < prob V eqb P c -> (0 < n)%nat ->
  expect (compute_mi q X Y c n) (value junk) = info V eqb P X Y c /\
  ((forall v, In v X <-> In v Y) -> expect (compute_entropy q X Y c n) (value junk) = entropy V eqb P X c).
Proof.
  intros V eqb P vars q X Y c n junk He HP Hq Hd NX NY HI Hc Hn.
  assert (HX : incl X vars) by (intros v Hv; apply HI; rewrite in_app_iff; auto). assert (HY : incl Y vars) by (intros v Hv; apply HI; rewrite in_app_iff; auto). split.
  - apply sound_value. now apply (mi_sound V eqb He P HP vars q Hq Hd).
  - intros S. apply sound_value. apply (entropy_sound V eqb He P HP vars q Hq Hd); try assumption. now apply same_set_iff.
Qed.
Print Assumptions C70_estimators.

(** With values for some and no value for other constraints: what should be computed. *)
Definition conditional V eqb (P : list (dict V * R)) (same : bool) (X Y : list Z) (C : dict (option V)) : R :=
  mean V eqb P (equalities C) (fun r => goal_of V eqb P same X Y (equalities C ++ proj V (margins C) r)).

(** All constraints have a value, or none has: the mean of a block is what should be computed. *)
Theorem C70_block : forall V eqb (P : list (dict V * R)) vars q X Y C T N junk,
  (forall a b, eqb a b = true <-> a = b) -> law V P -> exact V eqb P vars q -> defined V P vars ->
  NoDup X -> NoDup Y -> NoDup (dkeys C) -> incl (X ++ Y ++ dkeys C) vars -> 0 < prob V eqb P (equalities C) ->
  equalities C = [] \/ margins C = [] ->
  expect (compute_block q X Y C T N) (value junk) = conditional V eqb P (same_set X Y) X Y C.
Proof.
  intros V eqb P vars q X Y C T N junk He HP Hq Hd NX NY NC HI Hpos HC.
  assert (S : sound (compute_block q X Y C T N) (block_mean V eqb P (same_set X Y) X Y C)).
  { apply (block_sound V eqb He P HP vars q Hq Hd); try assumption; try (intros v Hv; apply HI; rewrite !in_app_iff; auto).
    intros e Ie. destruct HC as [HC|HC]; rewrite HC in *; cbn [app proj flat_map]; [|rewrite app_nil_r; exact Hpos]. apply (prob_pos V eqb P HP _ e Ie). now apply agrees_proj. }
  rewrite (sound_value _ _ S). unfold block_mean, conditional. destruct HC as [HC|HC]; rewrite HC in *; [reflexivity|]. cbn [proj flat_map]. rewrite app_nil_r, (mean_const V eqb P HP).
  unfold mean. set (k := goal_of _ _ _ _ _ _ _). transitivity (k / prob V eqb P (equalities C) * Rsum (map snd (rows V eqb P (equalities C)))).
  - rewrite <- (prob_rows V eqb P). field. lra.
  - rewrite <- Rsum_scal. apply Rsum_ext. intros. field. lra.
Qed.
Print Assumptions C70_block.

(** Full statement: whatever the constraints. It fails when some have a value and some have not: the ones without a value are drawn
    from their own law, and not given the values of the others, state.py:674. *)
Definition skewed : list (dict bool * R) :=
  [ ([(0%Z, false); (1%Z, false); (2%Z, false); (3%Z, false)], 1 / 12); ([(0%Z, false); (1%Z, false); (2%Z, true); (3%Z, true)], 1 / 12);
    ([(0%Z, true); (1%Z, false); (2%Z, false); (3%Z, false)], 1 / 3);
    ([(0%Z, false); (1%Z, true); (2%Z, false); (3%Z, false)], 1 / 6); ([(0%Z, false); (1%Z, true); (2%Z, true); (3%Z, true)], 1 / 6);
    ([(0%Z, true); (1%Z, true); (2%Z, false); (3%Z, false)], 1 / 6) ].
Lemma skewed_law : law bool skewed.
Proof. split; [repeat constructor; cbn; lra|]. unfold Rsum. cbn. lra. Qed.
Lemma skewed_defined : defined bool skewed [0; 1; 2; 3]%Z.
Proof. intros e H v Hv. cbn in H. decompose [or] H; subst; try exact Hv; contradiction. Qed.
Lemma eqb_bool : forall a b, Bool.eqb a b = true <-> a = b.  Proof. apply eqb_true_iff. Qed.
Definition mixed : dict (option bool) := [(0%Z, None); (1%Z, Some false)].
Ltac logs :=
  repeat match goal with |- context [ln ?x] => lazymatch x with 1 => fail | 2 => fail | _ => first [replace x with 1 by field | replace x with 2 by field] end end;
  rewrite ?ln_1.
Lemma skewed_split m : info bool Bool.eqb skewed [2%Z] [3%Z] [(1%Z, false); (0%Z, m)] = if m then 0 else ln 2.
Proof. unfold info, mean. destruct m; unfold prob, rows, Rsum; cbn; logs; field. Qed.
Lemma skewed_possible e : In e skewed -> 0 < prob bool Bool.eqb skewed (equalities mixed ++ proj bool (margins mixed) (fst e)).
Proof. intros H. cbn in H. decompose [or] H; subst; try contradiction; unfold prob, Rsum; cbn; lra. Qed.
Lemma skewed_mean c : mean bool Bool.eqb skewed c (fun r => goal_of bool Bool.eqb skewed false [2%Z] [3%Z] (equalities mixed ++ proj bool (margins mixed) r)) =
  mean bool Bool.eqb skewed c (fun r => match dget 0%Z r with Some false => ln 2 | _ => 0 end).
Proof.
  apply mean_ext. intros e H _. unfold goal_of. cbn in H. decompose [or] H; subst; try contradiction; cbn [fst dget Z.eqb]; change (equalities mixed) with [(1%Z, false)];
    change (proj bool (margins mixed) _) with [(0%Z, false)] || change (proj bool (margins mixed) _) with [(0%Z, true)]; apply skewed_split.
Qed.
Theorem C70_block_refuted : exists V eqb (P : list (dict V * R)) vars q X Y C T N,
  (forall a b, eqb a b = true <-> a = b) /\ law V P /\ exact V eqb P vars q /\ defined V P vars /\
  NoDup X /\ NoDup Y /\ NoDup (dkeys C) /\ incl (X ++ Y ++ dkeys C) vars /\ 0 < prob V eqb P (equalities C) /\
  (forall e, In e P -> 0 < prob V eqb P (equalities C ++ proj V (margins C) (fst e))) /\
  same_set X Y = false /\ conditional V eqb P false X Y C = 1 / 3 * ln 2 /\
  forall junk, expect (compute_block q X Y C T N) (value junk) = 1 / 2 * ln 2.
Proof.
  exists bool, Bool.eqb, skewed, [0; 1; 2; 3]%Z, (own Bool.eqb skewed), [2%Z], [3%Z], mixed, None, None.
  split; [exact eqb_bool|]. split; [exact skewed_law|]. split; [apply own_exact|]. split; [exact skewed_defined|]. split; [repeat constructor; cbn; tauto|]. split; [repeat constructor; cbn; tauto|].
  assert (NC : NoDup (dkeys mixed)) by (cbn; repeat constructor; cbn; intuition discriminate). split; [exact NC|].
  assert (HI : incl ([2%Z] ++ [3%Z] ++ dkeys mixed) [0; 1; 2; 3]%Z) by (intros v; cbn; tauto). split; [exact HI|]. split; [unfold prob, Rsum; cbn; lra|]. split; [exact skewed_possible|]. split; [reflexivity|]. split.
  - unfold conditional. rewrite skewed_mean. unfold mean, prob, rows, Rsum. cbn. field.
  - intros junk. rewrite (sound_value _ (block_mean bool Bool.eqb skewed (same_set [2%Z] [3%Z]) [2%Z] [3%Z] mixed)).
    + unfold block_mean. change (same_set [2%Z] [3%Z]) with false. rewrite skewed_mean. unfold mean, prob, rows, Rsum. cbn. field.
    + apply (block_sound bool Bool.eqb eqb_bool skewed skewed_law [0; 1; 2; 3]%Z _ (own_exact _ _ _ _) skewed_defined); try exact skewed_possible; try exact NC;
        try (repeat constructor; cbn; tauto); intros v Hv; cbn in *; tauto.
Qed.
Print Assumptions C70_block_refuted.

(** The rows asked for, given the constraints: as many as said, or a hundred when nothing or zero is said. What is raised is passed on. *)
Theorem C70_asked : forall V (q : queries V) X Y C T N n e,
  margins C = [] -> (exists v, ~ (In v X <-> In v Y)) -> (N = Some n /\ n <> 0%nat) \/ ((N = None \/ N = Some 0%nat) /\ n = 100%nat) ->
  q_simulate q None (X ++ Y) (equalities C) n = Ret (Err e) -> compute_block q X Y C T N = Ret (Err e).
Proof.
  intros V q X Y C T N n e HM [v Hv] HN Hs. unfold compute_block. rewrite HM. destruct (same_set X Y) eqn:S; [exfalso; apply Hv; now apply same_set_iff|]. cbn [negb].
  replace (or_100 N) with n; [unfold compute_mi; now rewrite Hs|]. destruct HN as [[-> H]|[[->| ->] ->]]; [destruct n; [congruence|reflexivity]|reflexivity|reflexivity].
Qed.
Print Assumptions C70_asked.
Example C70_asked_ex : compute_block (Queries (fun _ _ _ n => if Nat.eqb n 100 then Ret (Err TypeError) else Ret (Ok [])) (fun _ _ _ => Ok (Fin 0))) [0%Z] [1%Z] [(2%Z, Some true)] None None = Ret (Err TypeError).
Proof. reflexivity. Qed.

(* ------------------------------------------------------------------ *)
(** ** The hypotheses are met *)
Definition ex_net : list sig := [Sig [0%Z] []; Sig [1%Z] [0%Z]; Sig [2%Z] []].
Definition ex_labels (i : Z) : Z := if Z.eqb i 2 then 1%Z else 0%Z.
Lemma ex_net_disjoint : disjoint_outputs ex_net.
Proof.
  intros i j v [Hi Vi] [Hj Vj]. cbn in Hi, Hj. assert (Ci : (i = 0 \/ i = 1 \/ i = 2)%Z) by lia. assert (Cj : (j = 0 \/ j = 1 \/ j = 2)%Z) by lia.
  destruct Ci as [->|[->| ->]], Cj as [->|[->| ->]]; try reflexivity; exfalso; destruct Vi as [<-|[]]; destruct Vj as [Vj|[]]; discriminate.
Qed.
Example C70_labels_ex : labels_ok ex_net ex_labels.
Proof.
  intros i j Hi Hj. change (edges ex_net) with [(0, 1)%Z]. split.
  - cbn in Hi, Hj. assert (Ci : (i = 0 \/ i = 1 \/ i = 2)%Z) by lia. assert (Cj : (j = 0 \/ j = 1 \/ j = 2)%Z) by lia.
    destruct Ci as [->|[->| ->]], Cj as [->|[->| ->]]; cbn; intros H; try discriminate; try apply rst_refl; [apply rst_step; now left|apply rst_sym, rst_step; now left].
  - clear. intros H. induction H as [x y [E|[]]| | |]; [injection E as <- <-; reflexivity|reflexivity|congruence|congruence].
Qed.
Lemma ex_known v : In v [0; 1; 2]%Z -> known ex_net v.
Proof. cbn. intros [<-|[<-|[<-|[]]]]; [exists 0%Z|exists 1%Z|exists 2%Z]; (split; [cbn; lia|now left]). Qed.
(** 1 is fed by 0; 2 is apart. *)
Example C70_apart_ex : forall V (q : queries V) x T N, mutual_information q ex_net ex_labels (@rev Z) [1%Z] [2%Z] [(0%Z, Some x)] T N = Ret (Ok (Fin 0)).
Proof.
  intros V q x T N. apply C70_apart; [exact ex_net_disjoint|exact C70_labels_ex|intros l _; apply Permutation_sym, Permutation_rev| | |intros v Hv; apply ex_known; cbn in *; tauto|].
  - split; [|left]; intros v; cbn; lia.
  - repeat constructor; cbn; tauto.
  - intros u v i j [<-|[]] [<-|[]] Hi Hj L. assert (i = 1%Z) by (apply (ex_net_disjoint i 1%Z 1%Z Hi); split; [cbn; lia|now left]). assert (j = 2%Z) by (apply (ex_net_disjoint j 2%Z 2%Z Hj); split; [cbn; lia|now left]). subst.
    assert (X : ex_labels 1%Z = ex_labels 2%Z); [|discriminate]. apply C70_labels_ex; [cbn; lia|cbn; lia|].
    clear - L. unfold linked in L. induction L as [x y H|x|x y _ IH|x y z _ IH1 _ IH2]; [apply rst_step; apply C70_edges; [exact ex_net_disjoint|exact H]|apply rst_refl|now apply rst_sym|now apply (rst_trans _ _ _ y)].
Qed.
Example C70_refused_ex : forall (q : queries bool) T N,
  mutual_information q ex_net ex_labels (@rev Z) [0%Z] [1%Z] [(1%Z, Some true)] T N = Ret (Err ValueError) /\
  mutual_information q ex_net ex_labels (@rev Z) [0; 1]%Z [1; 2]%Z [] T N = Ret (Err ValueError) /\
  mutual_information q ex_net ex_labels (@rev Z) [0]%Z [7]%Z [] T N = Ret (Err KeyError).
Proof. intros. repeat split. Qed.
Example C70_estimators_ex : forall n junk, (0 < n)%nat -> expect (compute_mi (own Bool.eqb skewed) [2%Z] [3%Z] [(1%Z, false); (0%Z, false)] n) (value junk) = ln 2.
Proof.
  intros n junk Hn. rewrite <- (skewed_split false). apply (C70_estimators bool Bool.eqb skewed [0; 1; 2; 3]%Z); try exact Hn; try apply own_exact; try exact eqb_bool; try exact skewed_law; try exact skewed_defined;
    try (repeat constructor; cbn; tauto); [intros v; cbn; tauto|unfold prob, Rsum; cbn; lra].
Qed.
Example C70_query_ex : forall T N junk, expect (mutual_information (own Bool.eqb skewed) [Sig [0; 1; 2; 3]%Z []] (fun _ => 5%Z) (@rev Z) [2%Z] [3%Z] [(0%Z, Some false); (1%Z, Some false)] T N) (value junk) =
  info bool Bool.eqb skewed [2%Z] [3%Z] [(0%Z, false); (1%Z, false)].
Proof.
  intros T N junk. rewrite (C70_query bool Bool.eqb skewed [0; 1; 2; 3]%Z) with (comp := fun _ => 5%Z) (ks := [5%Z]).
  - unfold Rsum. cbn [map fold_right]. rewrite Rplus_0_r. unfold block_mean. cbn [cat_ filter Z.eqb Pos.eqb fst equalities margins flat_map snd app proj]. apply (mean_const bool Bool.eqb skewed skewed_law).
  - exact eqb_bool.
  - exact skewed_law.
  - apply own_exact.
  - exact skewed_defined.
  - intros i j v [Hi _] [Hj _]. cbn in Hi, Hj. lia.
  - intros v i _. reflexivity.
  - intros l _. apply Permutation_sym, Permutation_rev.
  - split; [|left]; intros v; cbn; lia.
  - repeat constructor; cbn; tauto.
  - repeat constructor; cbn; tauto.
  - repeat constructor; cbn; lia.
  - intros v Hv. exists 0%Z. split; [cbn; lia|]. cbn in *. tauto.
  - intros v Hv. cbn in *. tauto.
  - intros k e _. assert (G : 0 < prob bool Bool.eqb skewed [(0%Z, false); (1%Z, false)] /\ 0 < prob bool Bool.eqb skewed []) by (split; unfold prob, Rsum; cbn; lra).
    unfold cat_. cbn [filter]. destruct (Z.eqb 5 k); apply G.
  - repeat constructor; cbn; tauto.
  - intros k. cbn. split; [intros [<-|[]]; exists 2%Z, 3%Z; auto|]. intros (u & v & _ & _ & <- & _). auto.
Qed.
Example C70_block_ex : forall T N junk, expect (compute_block (own Bool.eqb skewed) [2%Z] [3%Z] [(0%Z, None)] T N) (value junk) = conditional bool Bool.eqb skewed false [2%Z] [3%Z] [(0%Z, None)].
Proof.
  intros T N junk. change false with (same_set [2%Z] [3%Z]).
  assert (One : forall x : Z, NoDup [x]) by (intros x; constructor; [intros []|constructor]).
  apply (C70_block bool Bool.eqb skewed [0; 1; 2; 3]%Z); [exact eqb_bool|exact skewed_law|apply own_exact|exact skewed_defined|apply One|apply One|apply One|intros v; cbn; tauto|unfold prob, Rsum; cbn; lra|now left].
Qed.
