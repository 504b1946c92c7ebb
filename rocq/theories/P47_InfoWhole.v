(** C70: when the connected parts are independent the sum over the parts is the mutual information of the whole. *)
From Verif Require Import MutualInfo ListFacts BaseFacts LogSpaceFacts NetworkFacts P46_MutualInfo.
From Coq Require Import List ZArith Reals Bool Lia Lra Permutation.
Import ListNotations.
Local Open Scope R_scope.

(** ** Specification *)
(** The part of an assignment. *)
Definition cut {V} (comp : Z -> Z) (k : Z) (a : dict V) : dict V := filter (fun e => Z.eqb (comp (fst e)) k) a.
Definition Rprod (l : list R) : R := fold_right Rmult 1 l.
(** The variables of different parts are independent. *)
Definition independent V eqb (P : list (dict V * R)) (vars : list Z) (comp : Z -> Z) (K : list Z) : Prop :=
  forall a, incl (dkeys a) vars -> prob V eqb P a = Rprod (map (fun k => prob V eqb P (cut comp k a)) K).

(** ** Sums *)
Lemma Rsum_cons x l : Rsum (x :: l) = x + Rsum l.  Proof. reflexivity. Qed.
Lemma Rsum_swap {A B} (f : A -> B -> R) l l' : Rsum (map (fun a => Rsum (map (f a) l')) l) = Rsum (map (fun b => Rsum (map (fun a => f a b) l)) l').
Proof.
  induction l as [|a l IH]; cbn [map].
  - symmetry. induction l' as [|b l' IH]; [reflexivity|]. cbn [map]. rewrite Rsum_cons, IH. unfold Rsum. cbn. ring.
  - rewrite Rsum_cons, IH, <- Rsum_plus. apply Rsum_ext. intros b _. now rewrite Rsum_cons.
Qed.
Lemma Rsum_pick {A} (dec : forall x y : A, {x = y} + {x <> y}) (g : A -> R) x l : NoDup l -> In x l -> Rsum (map (fun t => if dec t x then g t else 0) l) = g x.
Proof.
  induction l as [|y l IH]; intros N I; [destruct I|]. inversion N as [|? ? N1 N2]; subst. cbn [map]. rewrite Rsum_cons. destruct (dec y x) as [->|D].
  - replace (Rsum _) with 0; [ring|]. symmetry. clear - N1. induction l as [|z l IH]; [reflexivity|]. cbn [map]. rewrite Rsum_cons, IH by (intros H; apply N1; now right). destruct (dec z x) as [->|]; [exfalso; apply N1; now left|ring].
  - destruct I as [->|I]; [congruence|]. rewrite IH by assumption. ring.
Qed.
Lemma Rsum_keep {A} (f : A -> R) (p : A -> bool) l : (forall x, In x l -> p x = false -> f x = 0) -> Rsum (map f l) = Rsum (map f (filter p l)).
Proof.
  induction l as [|x l IH]; intros H; [reflexivity|]. cbn [map filter]. rewrite Rsum_cons, IH by (intros; apply H; [now right|assumption]). destruct (p x) eqn:E; [reflexivity|]. rewrite (H x (or_introl eq_refl) E). ring.
Qed.
Lemma Rsum_filter_if {A} (f : A -> R) (p : A -> bool) l : Rsum (map f (filter p l)) = Rsum (map (fun x => if p x then f x else 0) l).
Proof. induction l as [|x l IH]; [reflexivity|]. cbn [map filter]. rewrite Rsum_cons, <- IH. destruct (p x); [reflexivity|ring]. Qed.
Lemma Rprod_pos l : (forall x, In x l -> 0 < x) -> 0 < Rprod l.
Proof. induction l as [|x l IH]; intros H; cbn; [lra|]. apply Rmult_lt_0_compat; [apply H; now left|]. apply IH. intros. apply H. now right. Qed.
Lemma ln_Rprod l : (forall x, In x l -> 0 < x) -> ln (Rprod l) = Rsum (map ln l).
Proof.
  induction l as [|x l IH]; intros H; cbn [map]; [apply ln_1|]. rewrite Rsum_cons, <- IH by (intros; apply H; now right). apply ln_mult; [apply H; now left|apply Rprod_pos; intros; apply H; now right].
Qed.
Lemma Rprod_other (f g : Z -> R) k K : NoDup K -> In k K -> (forall j, j <> k -> f j = g j) -> Rprod (map f K) * g k = Rprod (map g K) * f k.
Proof.
  induction K as [|j K IH]; intros N I H; [destruct I|]. inversion N as [|? ? N1 N2]; subst. unfold Rprod in *. cbn [map fold_right]. destruct (Z.eq_dec j k) as [->|D].
  - replace (map f K) with (map g K); [ring|]. apply map_ext_in. intros j Hj. symmetry. apply H. intros ->. contradiction.
  - destruct I as [->|I]; [congruence|]. rewrite (H j D). specialize (IH N2 I H). rewrite Rmult_assoc, IH. ring.
Qed.

(** ** Laws *)
Section Whole.
  Variable V : Type.
  Variable eqb : V -> V -> bool.
  Hypothesis eqb_ok : forall a b, eqb a b = true <-> a = b.
  Variable P : list (dict V * R).
  Hypothesis HP : law V P.
  Variable vars : list Z.
  Hypothesis Hv : defined V P vars.
  Variable comp : Z -> Z.
  Variable K : list Z.
  Hypothesis NK : NoDup K.
  Hypothesis HK : forall v, In v vars -> In (comp v) K.
  Hypothesis Hi : independent V eqb P vars comp K.
  Notation prob := (prob V eqb P).
  Notation agrees := (agrees V eqb).
  Notation rows := (rows V eqb P).
  Notation mean := (mean V eqb P).
  Notation proj := (proj V).
  Notation cut := (cut comp).
  Notation at_ := (at_ comp).

  Lemma cut_app k (a b : dict V) : cut k (a ++ b) = cut k a ++ cut k b.  Proof. apply filter_app. Qed.
  Lemma cut_proj k X r : cut k (proj X r) = proj (at_ k X) r.
  Proof.
    induction X as [|x X IH]; [reflexivity|]. cbn [P46_MutualInfo.proj flat_map]. fold (proj X r). rewrite cut_app, IH. cbn [P46_MutualInfo.at_ filter].
    destruct (Z.eqb (comp x) k) eqn:E.
    - cbn [P46_MutualInfo.proj flat_map]. fold (proj (at_ k X) r). f_equal. destruct (dget x r); [|reflexivity]. cbn. now rewrite E.
    - destruct (dget x r); [|reflexivity]. cbn. now rewrite E.
  Qed.
  Lemma cut_keys k (a : dict V) : incl (dkeys (cut k a)) (dkeys a).
  Proof. intros v H. unfold dkeys in *. apply in_map_iff in H. destruct H as (e & <- & I). apply filter_In in I. apply in_map, I. Qed.
  Lemma at_incl k X : incl (at_ k X) X.  Proof. intros v H. apply filter_In in H. tauto. Qed.
  Lemma agrees_cut k a r : agrees a r = true -> agrees (cut k a) r = true.
  Proof. unfold P46_MutualInfo.agrees. rewrite !forallb_forall. intros H e I. apply H. apply filter_In in I. tauto. Qed.
  Lemma prob_ex c : 0 < prob c -> exists e, In e P /\ agrees c (fst e) = true.
  Proof.
    rewrite (prob_rows V eqb P). destruct (rows c) as [|e l] eqn:E; [unfold Rsum; cbn; lra|]. intros _. exists e. assert (I : In e (rows c)) by (rewrite E; now left). apply filter_In in I. exact I.
  Qed.
  Lemma prob_cut k c : 0 < prob c -> 0 < prob (cut k c).
  Proof. intros H. destruct (prob_ex c H) as (e & I & A). apply (prob_pos V eqb P HP _ e I). now apply agrees_cut. Qed.
  Lemma ln_prob a : incl (dkeys a) vars -> 0 < prob a -> ln (prob a) = Rsum (map (fun k => ln (prob (cut k a))) K).
  Proof.
    intros H1 H2. rewrite (Hi a H1), ln_Rprod, map_map; [reflexivity|]. intros x I. apply in_map_iff in I. destruct I as (k & <- & _). now apply prob_cut.
  Qed.

  (** Rows grouped by the values of some variables. *)
  Definition V_dec (a b : V) : {a = b} + {a <> b}.
  Proof. destruct (eqb a b) eqn:E; [left; now apply eqb_ok|right; intros H; apply eqb_ok in H; congruence]. Defined.
  Definition p_dec (a b : Z * V) : {a = b} + {a <> b}.
  Proof. destruct a as [a x], b as [b y]. destruct (Z.eq_dec a b) as [->|D]; [|right; congruence]. destruct (V_dec x y) as [->|D]; [now left|right; congruence]. Defined.
  Definition d_dec : forall a b : dict V, {a = b} + {a <> b} := list_eq_dec p_dec.
  Definition values (T : list Z) : list (dict V) := nodup d_dec (map (fun e => proj T (fst e)) P).
  Lemma agrees_values T r r0 : incl T (dkeys r) -> incl T (dkeys r0) -> agrees (proj T r0) r = if d_dec (proj T r0) (proj T r) then true else false.
  Proof.
    intros H1 H2. assert (G : agrees (proj T r0) r = true <-> proj T r0 = proj T r).
    { induction T as [|v T IH]; [split; reflexivity|]. assert (H1' : incl T (dkeys r)) by (intros x Hx; apply H1; now right). assert (H2' : incl T (dkeys r0)) by (intros x Hx; apply H2; now right). specialize (IH H1' H2').
      cbn [P46_MutualInfo.proj flat_map]. fold (proj T r). fold (proj T r0). destruct (dget v r) as [y|] eqn:E; [|exfalso; apply dget_None_notin in E; apply E, H1; now left]. destruct (dget v r0) as [x|] eqn:E0; [|exfalso; apply dget_None_notin in E0; apply E0, H2; now left].
      cbn [app]. unfold P46_MutualInfo.agrees. cbn [forallb fst snd]. rewrite E. fold (agrees (proj T r0) r). rewrite andb_true_iff, eqb_ok, IH. split; [intros [-> ->]; reflexivity|]. intros X. injection X as -> ->. auto. }
    destruct (d_dec (proj T r0) (proj T r)) as [E|D]; [now apply G|]. apply not_true_iff_false. rewrite G. exact D.
  Qed.
  Lemma grouped T c f : incl T vars -> mean c (fun r => f (proj T r)) = Rsum (map (fun t => prob (t ++ c) / prob c * f t) (values T)).
  Proof.
    intros HT. unfold P46_MutualInfo.mean, P46_MutualInfo.rows. rewrite Rsum_filter_if.
    transitivity (Rsum (map (fun t => Rsum (map (fun e => if d_dec t (proj T (fst e)) then (if agrees c (fst e) then snd e / prob c * f t else 0) else 0) P)) (values T))).
    - rewrite Rsum_swap. apply Rsum_ext. intros e He. symmetry. apply (Rsum_pick d_dec (fun t => if agrees c (fst e) then snd e / prob c * f t else 0)); [apply NoDup_nodup|]. apply nodup_In. now apply in_map_iff; exists e.
    - apply Rsum_ext. intros t Ht. apply nodup_In, in_map_iff in Ht. destruct Ht as (e0 & <- & H0). unfold P46_MutualInfo.prob at 2.
      transitivity (/ prob c * f (proj T (fst e0)) * Rsum (map (fun e => if agrees (proj T (fst e0) ++ c) (fst e) then snd e else 0) P)); [|unfold Rdiv; ring]. rewrite <- Rsum_scal. apply Rsum_ext. intros e He.
      rewrite (agrees_app V eqb), agrees_values by (intros v Hvv; apply Hv; auto). destruct (d_dec _ _); cbn [andb]; [|ring]. destruct (agrees c (fst e)); [unfold Rdiv|]; ring.
  Qed.
  Lemma cut_all k T r : (forall v, In v T -> comp v = k) -> cut k (proj T r) = proj T r.
  Proof. intros H. rewrite cut_proj. f_equal. unfold P46_MutualInfo.at_. induction T as [|v T IH]; [reflexivity|]. cbn [filter]. rewrite (H v (or_introl eq_refl)), Z.eqb_refl. f_equal. apply IH. intros. apply H. now right. Qed.
  Lemma cut_no k j T r : (forall v, In v T -> comp v = k) -> j <> k -> cut j (proj T r) = [].
  Proof.
    intros H D. rewrite cut_proj. replace (at_ j T) with (@nil Z); [reflexivity|]. symmetry. unfold P46_MutualInfo.at_. induction T as [|v T IH]; [reflexivity|]. cbn [filter]. rewrite (H v (or_introl eq_refl)). destruct (Z.eqb_spec k j); [congruence|]. apply IH. intros. apply H. now right.
  Qed.
  Lemma cut_cut k (c : dict V) : cut k (cut k c) = cut k c.
  Proof. induction c as [|e c IH]; [reflexivity|]. unfold P47_InfoWhole.cut in *. cbn [filter]. destruct (Z.eqb (comp (fst e)) k) eqn:E; [cbn [filter]; rewrite E; now f_equal|exact IH]. Qed.
  (** What is asked of a part depends on the constraints of the part only. *)
  Lemma local k T c f : In k K -> incl T vars -> (forall v, In v T -> comp v = k) -> incl (dkeys c) vars -> 0 < prob c ->
    mean c (fun r => f (proj T r)) = mean (cut k c) (fun r => f (proj T r)).
  Proof.
    intros Ik HT Hk Hc Hp. rewrite !grouped by exact HT. apply Rsum_ext. intros t Ht. apply nodup_In, in_map_iff in Ht. destruct Ht as (e & <- & He). f_equal.
    assert (Pk := prob_cut k c Hp).
    assert (E := Rprod_other (fun j => prob (cut j (proj T (fst e) ++ c))) (fun j => prob (cut j c)) k K NK Ik). cbv beta in E.
    rewrite <- !Hi in E; [|exact Hc|]. 2:{ unfold dkeys. rewrite map_app. intros v X. apply in_app_iff in X. destruct X as [X|X]; [apply HT, (proj_keys V T (fst e)), X|now apply Hc]. }
    rewrite cut_app, cut_all in E by exact Hk. specialize (E (fun j D => ltac:(rewrite cut_app, (cut_no k j T (fst e) Hk D); reflexivity))).
    apply (Rmult_eq_reg_r (prob c * prob (cut k c))); [|apply Rgt_not_eq, Rmult_lt_0_compat; assumption]. transitivity (prob (proj T (fst e) ++ c) * prob (cut k c)); [field; lra|]. rewrite E. field. lra.
  Qed.
  Lemma mean_sum {A} c (f : A -> dict V -> R) l : mean c (fun r => Rsum (map (fun k => f k r) l)) = Rsum (map (fun k => mean c (f k)) l).
  Proof. unfold P46_MutualInfo.mean. rewrite <- Rsum_swap. apply Rsum_ext. intros e _. now rewrite <- Rsum_scal. Qed.

  Lemma keys_of X r c : incl X vars -> incl (dkeys c) vars -> incl (dkeys (proj X r ++ c)) vars.
  Proof. intros H1 H2 v. unfold dkeys. rewrite map_app, in_app_iff. intros [H|H]; [apply H1, (proj_keys V X r), H|now apply H2]. Qed.
  Lemma info_parts X Y c : incl X vars -> incl Y vars -> incl (dkeys c) vars -> 0 < prob c -> info V eqb P X Y c = Rsum (map (fun k => info V eqb P (at_ k X) (at_ k Y) (cut k c)) K).
  Proof.
    intros HX HY Hc Hp. assert (HXY : incl (X ++ Y) vars) by (intros v; rewrite in_app_iff; intros [?|?]; auto).
    assert (L : forall x y z w, 0 < x -> 0 < y -> 0 < z -> 0 < w -> ln (x * y / (z * w)) = ln x + ln y - ln z - ln w).
    { intros. unfold Rdiv. rewrite ln_mult by (try apply Rinv_0_lt_compat; apply Rmult_lt_0_compat; assumption). rewrite ln_Rinv by (apply Rmult_lt_0_compat; assumption). rewrite !ln_mult by assumption. ring. }
    set (g := fun k t => ln (prob (t ++ cut k c) * prob (cut k c) / (prob (proj (at_ k X) t ++ cut k c) * prob (proj (at_ k Y) t ++ cut k c)))).
    transitivity (Rsum (map (fun k => mean c (fun r => g k (proj (at_ k X ++ at_ k Y) r))) K)).
    - unfold info. rewrite <- mean_sum. apply (mean_ext V eqb P). intros e Ie Ae. assert (Q : forall Z, 0 < prob (proj Z (fst e) ++ c)) by (intros Z; apply (pos_of V eqb eqb_ok P HP e Z c Ie Ae)).
      rewrite L by (try apply Q; exact Hp). rewrite !ln_prob by (try apply Q; try exact Hp; try exact Hc; apply keys_of; assumption).
      rewrite (map_ext_in (fun k => g k _) (fun k => ln (prob (cut k (proj (X ++ Y) (fst e) ++ c))) + ln (prob (cut k c)) - ln (prob (cut k (proj X (fst e) ++ c))) - ln (prob (cut k (proj Y (fst e) ++ c))))).
      + clear. unfold Rsum. induction K; cbn; [ring|]. rewrite <- IHl. ring.
      + intros k _. unfold g. assert (E : at_ k X ++ at_ k Y = at_ k (X ++ Y)) by (symmetry; apply filter_app). rewrite !proj_proj by (intros v; rewrite in_app_iff; auto). rewrite E, !cut_app, !cut_proj.
        apply L; rewrite <- ?cut_proj, <- ?cut_app; apply prob_cut; try apply Q; exact Hp.
    - apply Rsum_ext. intros k Ik. unfold info. rewrite (local k (at_ k X ++ at_ k Y) c (g k) Ik).
      + apply (mean_ext V eqb P). intros e _ _. unfold g. now rewrite !proj_proj by (intros v; rewrite in_app_iff; auto).
      + intros v. rewrite in_app_iff. intros [H|H]; apply at_incl in H; auto.
      + intros v. rewrite in_app_iff. intros [H|H]; apply filter_In in H; now apply Z.eqb_eq.
      + exact Hc.
      + exact Hp.
  Qed.
  Lemma ln_quot x y : 0 < x -> 0 < y -> ln (x / y) = ln x - ln y.
  Proof. intros. unfold Rdiv. rewrite ln_mult, ln_Rinv; [ring|assumption|assumption|now apply Rinv_0_lt_compat]. Qed.
  Lemma entropy_parts X c : incl X vars -> incl (dkeys c) vars -> 0 < prob c -> entropy V eqb P X c = Rsum (map (fun k => entropy V eqb P (at_ k X) (cut k c)) K).
  Proof.
    intros HX Hc Hp.
    transitivity (Rsum (map (fun k => mean c (fun r => - ln (prob (proj (at_ k X) r ++ cut k c) / prob (cut k c)))) K)).
    - unfold entropy. rewrite <- mean_sum. apply (mean_ext V eqb P). intros e Ie Ae. assert (Q : 0 < prob (proj X (fst e) ++ c)) by (apply (pos_of V eqb eqb_ok P HP e X c Ie Ae)).
      rewrite ln_quot by assumption. rewrite !ln_prob by (try exact Q; try exact Hp; try exact Hc; apply keys_of; assumption).
      rewrite (map_ext_in (fun k => - ln (prob (proj (at_ k X) (fst e) ++ cut k c) / prob (cut k c))) (fun k => - (ln (prob (cut k (proj X (fst e) ++ c))) - ln (prob (cut k c))))).
      + clear. unfold Rsum. induction K; cbn; [ring|]. rewrite <- IHl. ring.
      + intros k _. rewrite cut_app, cut_proj. f_equal. apply ln_quot; rewrite <- ?cut_proj, <- ?cut_app; apply prob_cut; assumption.
    - apply Rsum_ext. intros k Ik. unfold entropy. apply (local k (at_ k X) c (fun t => - ln (prob (t ++ cut k c) / prob (cut k c))) Ik).
      + intros v H. apply at_incl in H. auto.
      + intros v H. apply filter_In in H. now apply Z.eqb_eq.
      + exact Hc.
      + exact Hp.
  Qed.
  Lemma goal_parts same X Y c : incl X vars -> incl Y vars -> incl (dkeys c) vars -> 0 < prob c -> goal_of V eqb P same X Y c = Rsum (map (fun k => goal_of V eqb P same (at_ k X) (at_ k Y) (cut k c)) K).
  Proof. intros. unfold goal_of. destruct same; [now apply entropy_parts|now apply info_parts]. Qed.
  Lemma equalities_cat k (C : dict (option V)) : equalities (cat_ V comp k C) = cut k (equalities C).
  Proof.
    induction C as [|[v o] C IH]; [reflexivity|]. cbn [equalities flat_map fst snd]. fold (equalities C). rewrite cut_app, <- IH. cbn [cat_ filter fst]. destruct (Z.eqb (comp v) k) eqn:E; cbn [equalities flat_map fst snd]; destruct o; cbn; rewrite ?E; reflexivity.
  Qed.
  Lemma margins_cat k (C : dict (option V)) : margins (cat_ V comp k C) = at_ k (margins C).
  Proof.
    induction C as [|[v o] C IH]; [reflexivity|]. cbn [margins flat_map fst snd]. fold (margins C). unfold P46_MutualInfo.at_ in *. rewrite filter_app, <- IH. cbn [cat_ filter fst]. destruct (Z.eqb (comp v) k) eqn:E; cbn [margins flat_map fst snd]; destruct o; cbn; rewrite ?E; reflexivity.
  Qed.
  Lemma conditional_parts same X Y C : NoDup (dkeys C) -> incl X vars -> incl Y vars -> incl (dkeys C) vars -> 0 < prob (equalities C) ->
    conditional V eqb P same X Y C = Rsum (map (fun k => conditional V eqb P same (at_ k X) (at_ k Y) (cat_ V comp k C)) K).
  Proof.
    intros NC HX HY HC Hp. destruct (constraints_split V C NC) as (_ & _ & I1 & I2 & _). assert (HE : incl (dkeys (equalities C)) vars) by (intros v H; auto). assert (HM : incl (margins C) vars) by (intros v H; auto).
    unfold conditional. rewrite (mean_ext V eqb P _ _ (fun r => Rsum (map (fun k => goal_of V eqb P same (at_ k X) (at_ k Y) (cut k (equalities C) ++ proj (at_ k (margins C)) r)) K))).
    - rewrite mean_sum. apply Rsum_ext. intros k Ik. rewrite equalities_cat, margins_cat.
      apply (local k (at_ k (margins C)) (equalities C) (fun t => goal_of V eqb P same (at_ k X) (at_ k Y) (cut k (equalities C) ++ t)) Ik).
      + intros v H. apply at_incl in H. auto.
      + intros v H. apply filter_In in H. now apply Z.eqb_eq.
      + exact HE.
      + exact Hp.
    - intros e Ie Ae. rewrite goal_parts; [|exact HX|exact HY| |].
      + apply Rsum_ext. intros k _. now rewrite cut_app, cut_proj.
      + intros v. unfold dkeys. rewrite map_app, in_app_iff. intros [H|H]; [now apply HE|]. apply HM, (proj_keys V (margins C) (fst e)), H.
      + apply (prob_pos V eqb P HP _ e Ie). rewrite (agrees_app V eqb), Ae. cbn. now apply agrees_proj.
  Qed.
End Whole.

Lemma mean_zero V eqb (P : list (dict V * R)) c f : (forall e, In e P -> agrees V eqb c (fst e) = true -> f (fst e) = 0) -> mean V eqb P c f = 0.
Proof. intros H. unfold mean. apply Rsum_zero. intros e He. apply filter_In in He. rewrite H by tauto. ring. Qed.
(** A part without targets adds nothing. *)
Lemma goal_empty V eqb (eqb_ok : forall a b, eqb a b = true <-> a = b) (P : list (dict V * R)) (same : bool) X Y c : law V P -> 0 < prob V eqb P c ->
  (if same then X = [] else X = [] \/ Y = []) -> goal_of V eqb P same X Y c = 0.
Proof.
  intros HP Hp H. unfold goal_of. destruct same.
  - subst. apply mean_zero. intros e _ _. cbn [proj flat_map app]. replace (prob V eqb P c / prob V eqb P c) with 1 by (field; lra). rewrite ln_1. ring.
  - apply mean_zero. intros e Ie Ae. assert (Q : forall Z, 0 < prob V eqb P (proj V Z (fst e) ++ c)) by (intros Z; apply (pos_of V eqb eqb_ok P HP e Z c Ie Ae)).
    destruct H as [->| ->]; cbn [proj flat_map app]; rewrite ?app_nil_r; [specialize (Q Y)|specialize (Q X)]; rewrite <- ln_1; f_equal; cbn [app]; unfold proj in *; field; lra.
Qed.
Lemma conditional_empty V eqb (eqb_ok : forall a b, eqb a b = true <-> a = b) (P : list (dict V * R)) (same : bool) X Y C : law V P ->
  (if same then X = [] else X = [] \/ Y = []) -> conditional V eqb P same X Y C = 0.
Proof.
  intros HP H. unfold conditional. apply mean_zero. intros e Ie Ae. apply goal_empty; [exact eqb_ok|exact HP| |exact H]. apply (prob_pos V eqb P HP _ e Ie). rewrite (agrees_app V eqb), Ae. cbn. now apply agrees_proj.
Qed.

(** If the connected parts are independent, and all constraints have a value or none has, then the mean of the answer is the
    mutual information, or the entropy, of the whole query. *)
Theorem C70_whole : forall V eqb (P : list (dict V * R)) vars q cgpms labels comp K order A B C T N junk,
  (forall a b, eqb a b = true <-> a = b) -> law V P -> exact V eqb P vars q -> defined V P vars ->
  disjoint_outputs cgpms -> part_of cgpms labels comp -> some_walk order -> well_posed A B C -> NoDup A -> NoDup B -> NoDup (dkeys C) ->
  (forall v, In v (A ++ B ++ dkeys C) -> known cgpms v) -> incl (A ++ B ++ dkeys C) vars ->
  NoDup K -> (forall v, In v vars -> In (comp v) K) -> independent V eqb P vars comp K ->
  0 < prob V eqb P (equalities C) -> equalities C = [] \/ margins C = [] ->
  expect (mutual_information q cgpms labels order A B C T N) (value junk) = conditional V eqb P (same_set A B) A B C.
Proof.
  intros V eqb P vars q cgpms labels comp K order A B C T N junk He HP Hq Hd D HC HW HWP NA NB NC Hkn HI NK HK Hind Hp Hpure.
  set (p := fun k => negb (is_empty (at_ comp k A)) && negb (is_empty (at_ comp k B))).
  assert (Pk : forall k, 0 < prob V eqb P (equalities (cat_ V comp k C))) by (intros k; rewrite equalities_cat; now apply prob_cut).
  assert (Pure : forall k, equalities (cat_ V comp k C) = [] \/ margins (cat_ V comp k C) = []) by (intros k; rewrite equalities_cat, margins_cat; destruct Hpure as [-> | ->]; auto).
  rewrite (C70_query V eqb P vars q cgpms labels comp order A B C T N junk (filter p K)); try assumption.
  - rewrite (conditional_parts V eqb He P HP vars Hd comp K NK Hind); [|exact NC|intros v H; apply HI; rewrite !in_app_iff; auto|intros v H; apply HI; rewrite !in_app_iff; auto|intros v H; apply HI; rewrite !in_app_iff; auto|exact Hp].
    rewrite (Rsum_keep _ p K).
    + apply Rsum_ext. intros k _. unfold block_mean, conditional. destruct (Pure k) as [E|E]; rewrite E; [reflexivity|]. cbn [proj flat_map]. rewrite app_nil_r, (mean_const V eqb P HP).
      specialize (Pk k). set (c := equalities (cat_ V comp k C)) in *. set (g := goal_of _ _ _ _ _ _ _). unfold mean. transitivity (g / prob V eqb P c * Rsum (map snd (rows V eqb P c))).
      * rewrite <- (prob_rows V eqb P). field. lra.
      * rewrite <- Rsum_scal. apply Rsum_ext. intros. field. lra.
    + intros k _ F. apply conditional_empty; [exact He|exact HP|]. unfold p in F. apply andb_false_iff in F. rewrite !negb_false_iff in F.
      assert (Em : forall l : list Z, is_empty l = true -> l = []) by (intros [|? ?]; [reflexivity|discriminate]).
      destruct (same_set A B) eqn:S; [|destruct F as [F|F]; apply Em in F; auto]. destruct F as [F|F]; apply Em in F; [exact F|]. apply same_set_iff in S || rewrite same_set_iff in S.
      destruct (at_ comp k A) as [|v l] eqn:E; [reflexivity|]. exfalso. assert (I : In v (at_ comp k A)) by (rewrite E; now left). assert (J : In v (at_ comp k B)) by (unfold at_ in *; rewrite filter_In in *; rewrite <- (S v); exact I). rewrite F in J. exact J.
  - intros k e Ie. destruct (Pure k) as [E|E]; rewrite E; cbn [proj flat_map app]; [|rewrite app_nil_r; apply Pk]. apply (prob_pos V eqb P HP _ e Ie). now apply agrees_proj.
  - now apply NoDup_filter.
  - assert (Ne : forall k l, is_empty (at_ comp k l) = false <-> exists v, In v l /\ comp v = k).
    { intros k l. split.
      - intros H. destruct (at_ comp k l) as [|v l'] eqn:X; [discriminate|]. exists v. assert (I : In v (at_ comp k l)) by (rewrite X; now left). apply filter_In in I. rewrite Z.eqb_eq in I. exact I.
      - intros (v & I & F). assert (J : In v (at_ comp k l)) by (apply filter_In; rewrite Z.eqb_eq; auto). destruct (at_ comp k l); [destruct J|reflexivity]. }
    intros k. unfold p. rewrite filter_In, andb_true_iff, !negb_true_iff, !Ne. split.
    + intros (_ & (u & H1 & H2) & v & H3 & H4). exists u, v. auto.
    + intros (u & v & H1 & H2 & H3 & H4). split; [rewrite <- H3; apply HK, HI; rewrite in_app_iff; auto|]. split; [exists u|exists v]; auto.
Qed.
Print Assumptions C70_whole.

(** ** The hypotheses are met *)
(** Variables 0 and 1 are equal, 2 is apart. *)
Definition ex_row (b c : bool) : dict bool := [(0%Z, b); (1%Z, b); (2%Z, c)].
Definition ex_coins : list (dict bool * R) := [(ex_row true true, 1 / 4); (ex_row true false, 1 / 4); (ex_row false true, 1 / 4); (ex_row false false, 1 / 4)].
Definition ex_comp (v : Z) : Z := if Z.eqb v 2 then 1%Z else 0%Z.
Lemma ex_split a r : agrees bool Bool.eqb a r = agrees bool Bool.eqb (cut ex_comp 0 a) r && agrees bool Bool.eqb (cut ex_comp 1 a) r.
Proof.
  induction a as [|[v x] a IH]; [reflexivity|]. unfold agrees, cut in *. cbn [forallb filter fst snd]. rewrite IH.
  set (o := match dget v r with Some y => Bool.eqb x y | None => false end). assert (Ho : (ex_comp v = 0 \/ ex_comp v = 1)%Z) by (unfold ex_comp; destruct (Z.eqb v 2); auto).
  destruct Ho as [E | E]; rewrite E; cbn [Z.eqb Pos.eqb]; cbn [forallb fst snd]; fold o; rewrite ?andb_assoc; [reflexivity|]. f_equal. apply andb_comm.
Qed.
Lemma ex_first a b c c' : agrees bool Bool.eqb (cut ex_comp 0 a) (ex_row b c) = agrees bool Bool.eqb (cut ex_comp 0 a) (ex_row b c').
Proof.
  induction a as [|[v x] a IH]; [reflexivity|]. unfold agrees, cut in *. cbn [filter fst]. assert (Ec : ex_comp v = if Z.eqb v 2 then 1%Z else 0%Z) by reflexivity. rewrite Ec. clear Ec. destruct (Z.eqb v 2) eqn:E; cbn [Z.eqb]; [exact IH|]. cbn [forallb fst snd]. apply (f_equal2 andb); [|exact IH]. unfold ex_row. cbn [dget]. rewrite E. reflexivity.
Qed.
Lemma ex_second a b b' c : agrees bool Bool.eqb (cut ex_comp 1 a) (ex_row b c) = agrees bool Bool.eqb (cut ex_comp 1 a) (ex_row b' c).
Proof.
  induction a as [|[v x] a IH]; [reflexivity|]. unfold agrees, cut in *. cbn [filter fst]. assert (Ec : ex_comp v = if Z.eqb v 2 then 1%Z else 0%Z) by reflexivity. rewrite Ec. clear Ec. destruct (Z.eqb_spec v 2) as [->|E]; cbn [Z.eqb Pos.eqb]; [|exact IH]. cbn [forallb fst snd]. apply (f_equal2 andb); [reflexivity|exact IH].
Qed.
Lemma ex_independent : independent bool Bool.eqb ex_coins [0; 1; 2]%Z ex_comp [0; 1]%Z.
Proof.
  intros a _. unfold Rprod, prob, Rsum, ex_coins. cbn [map fold_right fst snd]. rewrite !(ex_split a).
  rewrite (ex_first a true false true), (ex_first a false false true), (ex_second a true false true), (ex_second a true false false).
  destruct (agrees bool Bool.eqb (cut ex_comp 0 a) (ex_row true true)), (agrees bool Bool.eqb (cut ex_comp 0 a) (ex_row false true)), (agrees bool Bool.eqb (cut ex_comp 1 a) (ex_row false true)), (agrees bool Bool.eqb (cut ex_comp 1 a) (ex_row false false)); cbn [andb]; lra.
Qed.
Lemma ex_coins_law : law bool ex_coins.
Proof. split; [repeat constructor; cbn; lra|]. unfold Rsum. cbn. lra. Qed.
Example C70_whole_ex : forall T N junk, expect (mutual_information (own Bool.eqb ex_coins) ex_net ex_labels (@rev Z) [0; 2]%Z [1]%Z [] T N) (value junk) = ln 2.
Proof.
  intros T N junk. rewrite (C70_whole bool Bool.eqb ex_coins [0; 1; 2]%Z) with (comp := ex_comp) (K := [0; 1]%Z).
  - change (same_set [0; 2]%Z [1]%Z) with false. unfold conditional. cbn [equalities margins flat_map proj app]. rewrite (mean_const bool Bool.eqb ex_coins ex_coins_law). unfold goal_of, info, mean, prob, rows, Rsum. cbn. logs. field.
  - exact eqb_bool.
  - exact ex_coins_law.
  - apply own_exact.
  - intros e H v Hv. cbn in H. decompose [or] H; subst; try exact Hv; contradiction.
  - exact ex_net_disjoint.
  - intros v i [Hi Vi]. cbn in Hi. assert (Ci : (i = 0 \/ i = 1 \/ i = 2)%Z) by lia. destruct Ci as [->|[->| ->]]; destruct Vi as [<-|[]]; reflexivity.
  - intros l _. apply Permutation_sym, Permutation_rev.
  - split; [|left]; intros v; cbn; lia.
  - repeat constructor; cbn; lia.
  - repeat constructor; cbn; lia.
  - constructor.
  - intros v Hv. apply ex_known. cbn in *. tauto.
  - intros v Hv. cbn in *. tauto.
  - repeat constructor; cbn; lia.
  - intros v. cbn. intros [<-|[<-|[<-|[]]]]; cbn; auto.
  - exact ex_independent.
  - unfold prob, Rsum. cbn. lra.
  - now left.
Qed.
