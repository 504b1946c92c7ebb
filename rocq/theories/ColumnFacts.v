(** Facts about the reassignment of columns: which views can be drawn, and with what
    weights. *)
From Verif Require Import LogSpaceFacts P06_Dim.
From Verif Require Export StateFacts.
Local Open Scope R_scope.

(** ** Drawing never selects an excluded alternative *)

Lemma nan_normalize x p : In NaN p -> ediv x (esum p) = NaN.
Proof. intros H. rewrite esum_nan by exact H. destruct x; reflexivity. Qed.

Lemma choice_nonan {A} draw (arr : list A) p a : choice draw arr (normalize p) = Ok a -> p <> [] -> ~ In NaN p.
Proof.
  unfold choice. intros E Hne Hin.
  destruct (length arr =? length (normalize p))%nat; [|discriminate]. cbn [andb] in E.
  destruct p as [|x p]; [contradiction|]. unfold normalize in E. cbn [map forallb] in E.
  rewrite nan_normalize in E by exact Hin. cbn [ext_nonneg andb] in E. discriminate.
Qed.

Lemma esub_nan x z : eisnan x = true \/ eisnan z = true -> esub x z = NaN.
Proof. destruct x, z; simpl; intros [H|H]; try discriminate; reflexivity. Qed.

Lemma logsumexp_pinf l z : In PInf l -> ~ In NaN l -> logsumexp l = Ok z -> z = PInf \/ z = NaN.
Proof.
  intros Hp Hn. destruct l as [|a l]; [destruct Hp|].
  assert (Hb : forallb (fun x => negb (eisnan x)) (a :: l) = true).
  { apply forallb_forall. intros x Hx. destruct x; try reflexivity. contradiction. }
  unfold logsumexp. rewrite Hb, (pymax_pinf _ _ Hb Hp). cbn [eisinf andb].
  destruct (negb (eeqb (pymin a l) (eopp PInf))); cbn [andb]; [intros E; injection E as <-; auto|].
  rewrite esum_nan; [|apply in_map_iff; exists PInf; split; [reflexivity|exact Hp]].
  cbn. intros E. injection E as <-. auto.
Qed.

Lemma logsumexp_ninf l : l <> [] -> Forall (fun x => x = NInf) l -> logsumexp l = Ok NInf.
Proof.
  intros Hne HF. destruct l as [|a l]; [contradiction|].
  assert (Hb : forallb (fun x => negb (eisnan x)) (a :: l) = true).
  { apply forallb_forall. intros x Hx. rewrite Forall_forall in HF. rewrite (HF x Hx). reflexivity. }
  assert (Hm : pymax a l = NInf) by (rewrite Forall_forall in HF; apply HF, pymax_in).
  assert (Hi : pymin a l = NInf) by (rewrite Forall_forall in HF; apply HF, pymin_in).
  unfold logsumexp. rewrite Hb, Hm, Hi. reflexivity.
Qed.

Lemma log_pflip_logw {A} draw l (arr : list A) a : log_pflip draw l arr = Ok a -> (length l <> 1)%nat ->
  Forall logw l /\ 0 < Rsum (map lexp l) /\ length arr = length l.
Proof.
  intros E Hl. unfold log_pflip, log_normalize in E.
  destruct (logsumexp l) as [z|] eqn:Ez; [|discriminate]. cbn [rbind] in E. rewrite map_map in E.
  set (p := map (fun x => eexp (esub x z)) l) in *.
  assert (Ec : choice draw arr (normalize p) = Ok a).
  { unfold pflip in E. destruct p as [|y [|y2 p2]] eqn:Ep; [exact E| |exact E].
    exfalso. apply Hl. rewrite <- (map_length (fun x => eexp (esub x z)) l). fold p. rewrite Ep. reflexivity. }
  assert (Hlen : length arr = length l).
  { unfold choice in Ec. destruct (length arr =? length (normalize p))%nat eqn:En; [|discriminate].
    apply Nat.eqb_eq in En. rewrite En. unfold normalize, p. rewrite !map_length. reflexivity. }
  assert (Hne : l <> []).
  { intros ->. destruct arr; [|discriminate]. unfold choice in Ec.
    destruct (_ && _); [|discriminate Ec]. destruct (draw (normalize p)); discriminate Ec. }
  assert (Hpn : p <> []) by (unfold p; destruct l; [contradiction|discriminate]).
  pose proof (choice_nonan _ _ _ _ Ec Hpn) as Hnn.
  assert (Hx : forall x, In x l -> esub x z <> NaN).
  { intros x Hx Hs. apply Hnn. unfold p. apply in_map_iff. exists x. rewrite Hs. auto. }
  assert (HnN : ~ In NaN l) by (intros Hn; apply (Hx NaN Hn); reflexivity).
  assert (HnP : ~ In PInf l).
  { intros Hp. apply (Hx PInf Hp). destruct (logsumexp_pinf _ _ Hp HnN Ez) as [->| ->]; reflexivity. }
  assert (HF : Forall logw l).
  { apply Forall_forall. intros x Hi. destruct x; simpl; auto. }
  split; [exact HF|]. split; [|exact Hlen].
  destruct (existsb (fun x => match x with Fin _ => true | _ => false end) l) eqn:Ee.
  - apply existsb_exists in Ee. destruct Ee as [[r| | |] [Hi Hr]]; try discriminate.
    eapply Rsum_lexp_pos; exact Hi.
  - exfalso. assert (Ha : Forall (fun x => x = NInf) l).
    { apply Forall_forall. intros x Hi. rewrite Forall_forall in HF. specialize (HF x Hi).
      destruct x as [r| | |]; simpl in HF; try contradiction; [|reflexivity].
      assert (existsb (fun x => match x with Fin _ => true | _ => false end) l = true).
      { apply existsb_exists. exists (Fin r). auto. } congruence. }
    rewrite (logsumexp_ninf _ Hne Ha) in Ez. injection Ez as <-.
    destruct l as [|x l]; [contradiction|]. apply (Hx x); [left; reflexivity|].
    inversion Ha; subst. reflexivity.
Qed.

(** What is drawn has a weight other than minus infinity. *)
Lemma log_pflip_drawn {A} draw l (arr : list A) a : draw_ok draw -> (length l <> 1)%nat ->
  log_pflip draw l arr = Ok a ->
  exists i y, nth_error arr i = Some a /\ nth_error l i = Some (Fin y).
Proof.
  intros Hd Hl E. destruct (log_pflip_logw _ _ _ _ E Hl) as [HF [HS HL]].
  destruct (log_pflip_spec draw l arr Hd HF HS HL) as [i [b [y [E2 [Hb [Hy Hp]]]]]].
  rewrite E in E2. injection E2 as <-. exists i.
  assert (Hw : logw y) by (rewrite Forall_forall in HF; apply HF; eapply nth_error_In; exact Hy).
  destruct y as [r| | |]; simpl in Hw; try contradiction; [exists r; auto|]. simpl in Hp. lra.
Qed.

(* ------------------------------------------------------------------ *)
(** ** The weights of the candidate views *)

Lemma set_nth_nth {A} i (x : A) l j :
  nth_error (set_nth i x l) j = if (j =? i)%nat then (if (i <? length l)%nat then Some x else None) else nth_error l j.
Proof.
  unfold set_nth. revert i j. induction l as [|y l IH]; intros i j.
  - destruct i, j; simpl; try reflexivity; destruct (j =? i)%nat; try reflexivity; destruct j; reflexivity.
  - destruct i as [|i], j as [|j]; simpl; try reflexivity. rewrite IH. reflexivity.
Qed.

Lemma set_nth_length {A} i (x : A) l : length (set_nth i x l) = length l.
Proof.
  unfold set_nth. revert i. induction l as [|y l IH]; intros [|i]; simpl; try reflexivity.
  rewrite IH. reflexivity.
Qed.

Lemma index_of_spec v keys i : index_of v keys = Ok i -> nth_error keys i = Some v.
Proof.
  revert i. induction keys as [|y keys IH]; intros i; simpl; [discriminate|].
  destruct (Z.eqb_spec v y) as [->|_]; [intros E; injection E as <-; reflexivity|].
  destruct (index_of v keys) as [j|]; cbn [rbind]; [|discriminate]. intros E. injection E as <-. apply IH. reflexivity.
Qed.

Lemma index_of_in v keys : In v keys -> exists i, index_of v keys = Ok i.
Proof.
  induction keys as [|y keys IH]; intros H; [destruct H|]. simpl.
  destruct (Z.eqb_spec v y) as [->|Hn]; [eauto|]. destruct H as [H|H]; [congruence|].
  destruct (IH H) as [i ->]. simpl. eauto.
Qed.

(** Is the [i]-th entry struck out? *)
Definition struck (s : state) (keys l : list Z) (i : nat) : bool :=
  existsb (fun a => match dget a (s_zv s) with
                    | Some v => match nth_error keys i with Some v' => (v' =? v)%Z | None => false end
                    | None => false end) l.

Lemma mask_spec s keys l : NoDup keys -> forall w w', mask s keys l w = Ok w' ->
  length w' = length w /\
  forall i, (i < length w)%nat -> nth_error w' i = if struck s keys l i then Some NInf else nth_error w i.
Proof.
  intros Hn. induction l as [|a l IH]; intros w w'; simpl.
  { intros E. injection E as <-. auto. }
  destruct (dget a (s_zv s)) as [v|]; [|discriminate].
  destruct (index_of v keys) as [j|] eqn:Ej; cbn [rbind]; [|discriminate]. intros E.
  destruct (IH _ _ E) as [L S]. rewrite set_nth_length in L. split; [exact L|].
  intros i Hi. rewrite S by (rewrite set_nth_length; exact Hi). fold (struck s keys l i).
  rewrite set_nth_nth. apply index_of_spec in Ej.
  destruct (Nat.eqb_spec i j) as [->|Hne].
  - rewrite Ej, Z.eqb_refl. cbn [orb]. apply Nat.ltb_lt in Hi. rewrite Hi.
    destruct (struck s keys l j); reflexivity.
  - assert (Hf : match nth_error keys i with Some v' => (v' =? v)%Z | None => false end = false).
    { destruct (nth_error keys i) as [v'|] eqn:Ei; [|reflexivity]. apply Z.eqb_neq. intros ->. apply Hne.
      apply (proj1 (NoDup_nth_error keys) Hn); [apply nth_error_Some; congruence|congruence]. }
    rewrite Hf. reflexivity.
Qed.

(** How many other columns are in view [v]. *)
Definition others (s : state) (c v : Z) : nat :=
  length (filter (fun p => negb (fst p =? c)%Z && (snd p =? v)%Z) (s_zv s)).
Definition prior (s : state) (c : Z) (m : nat) (v : Z) : R :=
  if (others s c v =? 0)%nat then c_alpha (s_crp s) / INR m else INR (others s c v).

Lemma others_occ s c v : NoDup (dkeys (s_zv s)) ->
  Z.of_nat (others s c v) = occ v (dvals (ddel c (s_zv s))).
Proof.
  unfold others. induction (s_zv s) as [|[c0 v0] d IH]; intros Hn; [reflexivity|].
  inversion Hn as [|? ? Hn1 Hn2]; subst. cbn [ddel filter fst snd] in *.
  destruct (Z.eqb_spec c0 c) as [->|Hne].
  - rewrite Z.eqb_refl. cbn [negb andb].
    assert (Hd : ddel c d = d).
    { clear -Hn1. induction d as [|[c1 v1] d IH]; [reflexivity|]. cbn [ddel].
      destruct (Z.eqb_spec c c1) as [->|]; [exfalso; apply Hn1; left; reflexivity|].
      f_equal. apply IH. intros H. apply Hn1. right. exact H. }
    rewrite <- Hd at 2. apply IH. exact Hn2.
  - cbn [negb andb].
    destruct (Z.eqb_spec c c0) as [->|_]; [contradiction|].
    change (dvals ((c0, v0) :: ddel c d)) with (v0 :: dvals (ddel c d)). rewrite occ_cons, <- IH by exact Hn2.
    rewrite (Z.eqb_sym v v0). destruct (v0 =? v)%Z; cbn [length]; lia.
Qed.

Lemma prior_weight s c z m v : crp_inv (s_crp s) -> dget c (s_zv s) = Some z -> (0 < m)%nat ->
  gibbs_weight (s_crp s) c m v = prior s c m v.
Proof.
  intros Hi Hz Hm. unfold gibbs_weight, prior.
  destruct (gibbs_data' _ _ _ _ Hi Hz Hm) as [Ed [_ [_ [[_ [[_ Hct] _]] _]]]].
  rewrite Hct, Ed. change (c_data (s_crp s)) with (s_zv s).
  rewrite <- others_occ by apply Hi.
  destruct (others s c v) as [|q]; [reflexivity|]. cbn [Nat.eqb].
  destruct (Z.eqb_spec (Z.of_nat (S q)) 0); [lia|]. rewrite <- INR_IZR_INZ. reflexivity.
Qed.

Lemma Forall2_nth {A B} (P : A -> B -> Prop) l m i x : Forall2 P l m -> nth_error l i = Some x ->
  exists y, nth_error m i = Some y /\ P x y.
Proof.
  intros H. revert i. induction H as [|a b l m Hab _ IH]; intros [|i] E; simpl in *; try discriminate.
  - injection E as <-. eauto.
  - apply IH. exact E.
Qed.

Lemma combine_nth_error {A B} (l : list A) (m : list B) i x y :
  nth_error l i = Some x -> nth_error m i = Some y -> nth_error (combine l m) i = Some (x, y).
Proof.
  revert m i. induction l as [|a l IH]; intros [|b m] [|i] E1 E2; simpl in *; try discriminate.
  - injection E1 as <-. injection E2 as <-. reflexivity.
  - apply IH; assumption.
Qed.

Lemma nth_error_firstn_lt {A} (l : list A) k i : (i < k)%nat -> nth_error (firstn k l) i = nth_error l i.
Proof.
  revert l i. induction k as [|k IH]; intros l i Hi; [lia|]. destruct l as [|x l]; [reflexivity|].
  destruct i as [|i]; [reflexivity|]. cbn [firstn nth_error]. apply IH. lia.
Qed.

(** The candidates are the existing views in ascending order of their numbers; the
    data probabilities, and the entries that the constraints strike out, are in the
    order of the dictionary of views. *)
Lemma column_weights n seeds s c m a s1 p : sinv n s -> 0 < c_alpha (s_crp s) -> dim_for s c = Ok a ->
  column_plan seeds s c m a = (s1, Ok p) ->
  forall i v w, nth_error (s_views s) i = Some (v, w) ->
  exists t b lp, nth_error (zsort (dkeys (s_views s))) i = Some t /\
    nth_error (cp_tables p) i = Some t /\
    akin a b /\ hkin a b /\ (m_coll (a_M a) = true -> agree (a_d b)) /\
    column_ok (tab (s_X s)) w c b /\ a_score b = Ok lp /\
    nth_error (cp_weights p) i =
      Some (if struck s (dkeys (s_views s)) (avoid (s_Ci s) c) i then NInf
            else eadd lp (Fin (ln (prior s c m t)))).
Proof.
  intros H Ha Hd E i v w Hi.
  destruct (column_plan_ok _ _ _ _ _ _ _ _ H Hd E)
    as [ws [ex [ax [auxs [lc [_ [_ [Et [_ [_ [_ [Fx [_ [_ [_ [_ [_ [El [Len [Em EL]]]]]]]]]]]]]]]]]]]].
  destruct (firstn_skipn_tables _ _ _ _ _ H Et) as [_ [Hf _]].
  assert (Hm : (0 < m)%nat).
  { unfold crp_gibbs_tables in Et. destruct (0 <? m)%nat eqn:Em0; [apply Nat.ltb_lt; exact Em0|discriminate]. }
  destruct (dim_for_spec _ _ _ _ H Hd) as [v0 [w0 [Ev0 _]]].
  assert (Hil : (i < length (s_views s))%nat) by (apply nth_error_Some; congruence).
  assert (Ht : exists t, nth_error (zsort (dkeys (s_views s))) i = Some t).
  { destruct (nth_error (zsort (dkeys (s_views s))) i) as [t|] eqn:E0; [eauto|].
    apply nth_error_None in E0. rewrite zsort_length in E0. unfold dkeys in E0. rewrite map_length in E0. lia. }
  destruct Ht as [t Ht]. assert (Htt : nth_error (cp_tables p) i = Some t).
  { rewrite <- Ht, <- Hf. symmetry. apply nth_error_firstn_lt. exact Hil. }
  destruct (Forall2_nth _ _ _ _ _ Fx Hi) as [[q lp] [Hq [b [P1 [P2 [P3 [_ [_ [_ [P4 P5]]]]]]]]]].
  cbn [fst snd] in *.
  assert (Hq' : nth_error (ex ++ ax) i = Some (q, lp)).
  { rewrite nth_error_app1; [exact Hq|]. apply nth_error_Some. congruence. }
  rewrite (gibbs_logps_eq _ _ _ _ (si_crp _ _ H) Ha Ev0 Hm _ Et) in El. injection El as <-.
  exists t, b, lp. do 7 (split; [assumption|]).
  destruct (mask_spec _ _ _ (si_nv _ _ H) _ _ Em) as [Lm Sm].
  assert (Hw : nth_error (map (fun pl => eadd (snd (fst pl)) (Fin (snd pl)))
     (combine (ex ++ ax) (map (fun t0 => ln (gibbs_weight (s_crp s) c m t0)) (cp_tables p)))) i
     = Some (eadd lp (Fin (ln (prior s c m t))))).
  { rewrite nth_error_map. erewrite combine_nth_error; [|exact Hq'|apply map_nth_error; exact Htt].
    cbn [option_map fst snd]. rewrite (prior_weight _ _ _ _ _ (si_crp _ _ H) Ev0 Hm). reflexivity. }
  rewrite Sm; [|apply nth_error_Some; congruence].
  destruct (struck _ _ _ i); [reflexivity|exact Hw].
Qed.

Lemma struck_true s keys l i : struck s keys l i = true <->
  exists a v, In a l /\ dget a (s_zv s) = Some v /\ nth_error keys i = Some v.
Proof.
  unfold struck. rewrite existsb_exists. split.
  - intros [a [Ha Hs]]. destruct (dget a (s_zv s)) as [v|] eqn:E; [|discriminate].
    destruct (nth_error keys i) as [v'|]; [|discriminate]. apply Z.eqb_eq in Hs. subst v'. exists a, v. auto.
  - intros [a [v [Ha [Hv Hk]]]]. exists a. split; [exact Ha|]. rewrite Hv, Hk. apply Z.eqb_refl.
Qed.

Lemma avoid_spec Ci c x : In x (avoid Ci c) <-> x <> c /\ exists p, In p Ci /\ In c p /\ In x p.
Proof.
  unfold avoid. rewrite in_flat_map. split.
  - intros [p [Hp Hx]]. destruct (zmem c p) eqn:Ec; [|destruct Hx]. apply zmem_in in Ec.
    apply filter_In in Hx. destruct Hx as [Hx Hn]. apply negb_true_iff, Z.eqb_neq in Hn. split; [exact Hn|eauto].
  - intros [Hn [p [Hp [Hc Hx]]]]. exists p. split; [exact Hp|].
    rewrite (proj2 (zmem_in c p) Hc). apply filter_In. split; [exact Hx|]. apply negb_true_iff, Z.eqb_neq. exact Hn.
Qed.

(* ------------------------------------------------------------------ *)
(** ** Where a column ends up *)

Definition ascending (l : list Z) : Prop := StronglySorted Z.lt l.

Lemma ascending_NoDup l : ascending l -> NoDup l.
Proof.
  induction 1 as [|x l _ IH HF]; constructor; [|exact IH].
  intros Hi. rewrite Forall_forall in HF. specialize (HF x Hi). lia.
Qed.

Lemma ascending_zsort l : ascending l -> l = zsort l.
Proof.
  intros H. apply sorted_unique; [|apply zsort_sorted|apply Permutation_sym, zsort_perm].
  induction H as [|x l _ IH HF]; constructor; [exact IH|].
  eapply Forall_impl; [|exact HF]. intros; lia.
Qed.

Lemma zsort_ascending l : NoDup l -> l = zsort l -> ascending l.
Proof.
  intros Hn E. pose proof (zsort_sorted l) as H. rewrite <- E in H. clear E.
  induction H as [|x l _ IH HF]; [constructor|].
  inversion Hn as [|? ? Hx Hn']; subst. constructor; [apply IH; exact Hn'|].
  rewrite Forall_forall in *. intros y Hy. specialize (HF y Hy).
  assert (x <> y) by (intros ->; contradiction). lia.
Qed.

Lemma ascending_ddel {A} k (d : dict A) : ascending (dkeys d) -> ascending (dkeys (ddel k d)).
Proof.
  unfold ascending. induction d as [|[k' x] d IH]; simpl; [auto|].
  intros H. inversion H as [|? ? H1 H2]; subst. destruct (k =? k')%Z; [exact H1|].
  simpl. constructor; [apply IH; exact H1|].
  rewrite Forall_forall in *. intros y Hy. apply H2.
  change (In y (dkeys (ddel k d))) in Hy. apply in_dkeys_Some in Hy. destruct Hy as [z Hz].
  clear - Hz. apply dget_In in Hz. induction d as [|[k2 x2] d IH]; simpl in *; [exact Hz|].
  destruct (k =? k2)%Z; [right; change (In y (dkeys d)); eapply in_dkeys_In; exact Hz|].
  destruct Hz as [E|Hz]; [left; congruence|right; apply IH; exact Hz].
Qed.

Lemma ascending_dset {A} k x (d : dict A) : ascending (dkeys d) ->
  In k (dkeys d) \/ (forall y, In y (dkeys d) -> (y < k)%Z) -> ascending (dkeys (dset k x d)).
Proof.
  intros H Hk. destruct (in_dec Z.eq_dec k (dkeys d)) as [Hi|Hi].
  - rewrite dkeys_dset_in by exact Hi. exact H.
  - destruct Hk as [Hk|Hk]; [contradiction|]. rewrite dkeys_dset_notin by exact Hi.
    clear Hi. induction H as [|y l _ IH HF]; simpl; [repeat constructor|].
    constructor; [apply IH; intros z Hz; apply Hk; right; exact Hz|].
    apply Forall_app. split; [exact HF|]. constructor; [|constructor]. apply Hk. left. reflexivity.
Qed.

Lemma migrate_frame s c va vb b s' : crp_inv (s_crp s) -> dget c (s_zv s) = Some va ->
  migrate_dim s c va vb b = (s', Ok tt) ->
  dget c (s_zv s') = Some vb /\ (forall c', c' <> c -> dget c' (s_zv s') = dget c' (s_zv s)) /\
  s_Ci s' = s_Ci s /\ c_alpha (s_crp s') = c_alpha (s_crp s) /\
  (ascending (dkeys (s_views s)) -> ascending (dkeys (s_views s'))).
Proof.
  intros Hi Hva. unfold migrate_dim, migrate_to.
  destruct (dget va (c_counts (s_crp s))) as [nva|]; [|discriminate].
  destruct (dget va (s_views s)) as [wa|] eqn:Ewa; [|discriminate].
  destruct (if dmem c (v_dims wa) then view_unincorporate_dim wa c else (wa, Ok tt)) as [wa1 [[]|e]]; [|discriminate].
  cbn [s_views set_views].
  destruct (dget vb (dset va wa1 (s_views s))) as [wb|] eqn:Ewb; [|discriminate].
  destruct (view_incorporate_dim _ wb c b _) as [[wb1 b1] r2]. destruct (rbind r2 _); [|discriminate].
  cbn [s_crp set_views].
  destruct (crp_uninc_spec _ _ _ Hi Hva) as [k1 [Eu [I1 [D1 [A1 _]]]]]. rewrite Eu.
  destruct (crp_incorporate k1 c vb) as [k2 [[]|e]] eqn:Ec; [|discriminate].
  destruct (crp_inc_spec _ _ _ _ I1 Ec) as [_ [_ [D2 [_ A2]]]].
  assert (Z1 : dget c (c_data k2) = Some vb) by (rewrite D2; apply dget_dset_same).
  assert (Z2 : forall c', c' <> c -> dget c' (c_data k2) = dget c' (s_zv s)).
  { intros c' Hc'. rewrite D2, dget_dset_other, D1 by exact Hc'. apply dget_ddel_other. exact Hc'. }
  assert (Asc : ascending (dkeys (s_views s)) -> ascending (dkeys (dset vb wb1 (dset va wa1 (s_views s))))).
  { intros H. apply ascending_dset; [apply ascending_dset; [exact H|]|].
    - left. eapply dget_Some_in; exact Ewa.
    - left. eapply dget_Some_in; exact Ewb. }
  destruct (nva =? 1)%Z.
  - cbn [set_scrp s_views set_views]. destruct (dmem va (c_counts k2)); [discriminate|].
    intros E. injection E as <-. do 3 (split; [first [exact Z1|exact Z2|reflexivity]|]).
    split; [cbn; congruence|]. intros H. apply ascending_ddel, Asc, H.
  - intros E. injection E as <-. do 3 (split; [first [exact Z1|exact Z2|reflexivity]|]).
    split; [cbn; congruence|]. exact Asc.
Qed.

(** A successful column step assigns the column to the table that was drawn. *)
Lemma transition_dim_drawn n d s c m s' : sinv n s -> transition_dim d s c m = (s', Ok tt) ->
  exists a s1 p vb prop, dim_for s c = Ok a /\ column_plan (cd_seeds d) s c m a = (s1, Ok p) /\
    log_pflip (cd_draw d) (cp_weights p) (combine (cp_tables p) (cp_props p)) = Ok (vb, prop) /\
    dget c (s_zv s') = Some vb /\ (forall c', c' <> c -> dget c' (s_zv s') = dget c' (s_zv s)) /\
    s_Ci s' = s_Ci s /\ c_alpha (s_crp s') = c_alpha (s_crp s) /\
    (ascending (dkeys (s_views s)) -> ascending (dkeys (s_views s'))).
Proof.
  intros H. unfold transition_dim.
  destruct (all_dims s) as [ds|]; [|discriminate].
  destruct (existsb _ ds); [discriminate|]. destruct (s_Cd s) eqn:ECd; [|discriminate].
  destruct (dim_for s c) as [a|] eqn:Ea; [|discriminate].
  destruct (column_plan (cd_seeds d) s c m a) as [s1 [p|e]] eqn:Ep; [|discriminate].
  destruct (column_plan_ok n _ _ _ _ _ _ _ H Ea Ep) as [ws [ex [ax [auxs [lcrp [E1 [HF _]]]]]]].
  destruct (log_pflip _ _ _) as [[vb prop]|] eqn:El; [|discriminate].
  set (b := match prop with Some b => b | None => cp_shared p end).
  destruct (dim_for_spec _ _ _ _ H Ea) as [va [wa0 [Eva [Ewa0 _]]]].
  destruct (dget_forall2 (sans c) _ _ HF) as [K G].
  assert (Ez : s_zv s1 = s_zv s) by (rewrite E1; reflexivity).
  assert (Ec1 : s_crp s1 = s_crp s) by (rewrite E1; reflexivity).
  assert (Ek : dkeys (s_views s1) = dkeys (s_views s)) by (rewrite E1; exact K).
  assert (Ei1 : s_Ci s1 = s_Ci s) by (rewrite E1; reflexivity). clear E1.
  rewrite Ez, Eva. intros E.
  exists a, s1, p, vb, prop. split; [reflexivity|]. split; [exact Ep|]. split; [exact El|].
  destruct (Z.eqb_spec va vb) as [<-|Hne].
  - destruct (dget va (s_views s1)) as [wa|] eqn:Ewa; [|discriminate].
    destruct (view_incorporate_dim (tab (s_X s1)) wa c b (m_coll (a_M b))) as [[wa1 b1] r1].
    assert (Es : set_views s1 (dset va wa1 (s_views s1)) = s') by (injection E as E _; exact E).
    subst s'. split; [change (dget c (s_zv s1) = Some va); congruence|].
    split; [intros c' _; change (dget c' (s_zv s1) = dget c' (s_zv s)); congruence|].
    split; [exact Ei1|]. split; [cbn; congruence|]. cbn [s_views set_views]. intros Ha.
    apply ascending_dset; [rewrite Ek; exact Ha|]. left. eapply dget_Some_in; exact Ewa.
  - destruct (zmax_list (dkeys (s_views s1))) as [mx|] eqn:Emx; [|discriminate].
    apply zmax_list_spec in Emx. destruct Emx as [_ Emx].
    destruct (mx <? vb)%Z eqn:Elt.
    + destruct (dget vb (cp_aux p)) as [w|]; [|discriminate].
      destruct (migrate_frame (set_views s1 (dset vb w (s_views s1))) c va _ _ _ ltac:(cbn; rewrite Ec1; apply (si_crp _ _ H))
                 ltac:(change (dget c (s_zv s1) = Some va); congruence) E) as [A [B [C [D F]]]].
      split; [exact A|]. split; [intros c' Hc'; rewrite (B c' Hc'); change (dget c' (s_zv s1) = dget c' (s_zv s)); congruence|].
      split; [rewrite C; exact Ei1|]. split; [rewrite D; cbn; congruence|]. intros Ha. apply F.
      cbn [s_views set_views]. apply ascending_dset; [rewrite Ek; exact Ha|]. right.
      intros y Hy. specialize (Emx y Hy). apply Z.ltb_lt in Elt. lia.
    + destruct (migrate_frame s1 c va _ _ _ ltac:(rewrite Ec1; apply (si_crp _ _ H))
                 ltac:(congruence) E) as [A [B [C [D F]]]].
      split; [exact A|]. split; [intros c' Hc'; rewrite (B c' Hc'); congruence|].
      split; [congruence|]. split; [congruence|]. rewrite <- Ek. exact F.
Qed.

(** ** Independence constraints *)

(** Two different columns of one constraint are in different views. *)
Definition ci_kept (s : state) : Prop := forall p x y v, In p (s_Ci s) -> In x p -> In y p -> x <> y ->
  dget x (s_zv s) = Some v -> dget y (s_zv s) <> Some v.

Lemma transition_dim_ci n d s c m s' : sinv n s -> ascending (dkeys (s_views s)) -> 0 < c_alpha (s_crp s) ->
  draw_ok (cd_draw d) -> ci_kept s -> transition_dim d s c m = (s', Ok tt) -> ci_kept s'.
Proof.
  intros H Hs Ha Hd Hci E.
  destruct (transition_dim_drawn _ _ _ _ _ _ H E) as [a [s1 [p [vb [prop [Ed [Ep [El [Zc [Zo [EC _]]]]]]]]]]].
  assert (Key : forall q y, In q (s_Ci s) -> In c q -> In y q -> y <> c -> dget y (s_zv s) <> Some vb).
  { intros q y Hq Hc Hy Hne Hv.
    assert (Hav : In y (avoid (s_Ci s) c)) by (apply avoid_spec; eauto).
    destruct (dim_for_spec _ _ _ _ H Ed) as [va [wa [Eva [Ewa _]]]].
    assert (Hab : va <> vb) by (intros ->; eapply (Hci q c y vb); eauto).
    assert (Hvb : In vb (dkeys (s_views s))) by (apply (used_views _ _ _ H); eauto).
    assert (Hva : In va (dkeys (s_views s))) by (eapply dget_Some_in; exact Ewa).
    destruct (In_nth_error _ _ Hvb) as [i Hi]. unfold dkeys in Hi. rewrite nth_error_map in Hi.
    destruct (nth_error (s_views s) i) as [[v w]|] eqn:Ei; [|discriminate]. cbn in Hi. injection Hi as ->.
    destruct (column_weights _ _ _ _ _ _ _ _ H Ha Ed Ep i vb w Ei) as [t [b [lp [T1 [T2 [_ [_ [_ [_ [_ W]]]]]]]]]].
    assert (Ek : nth_error (dkeys (s_views s)) i = Some vb) by (unfold dkeys; rewrite nth_error_map, Ei; reflexivity).
    assert (Et : t = vb) by (rewrite <- (ascending_zsort _ Hs) in T1; congruence). subst t.
    assert (St : struck s (dkeys (s_views s)) (avoid (s_Ci s) c) i = true).
    { apply struck_true. exists y, vb. auto. }
    rewrite St in W.
    destruct (column_plan_ok n _ _ _ _ _ _ _ H Ed Ep)
      as [ws [ex [ax [auxs [lcrp [_ [_ [Et [_ [_ [_ [_ [_ [_ [_ [_ [_ [_ [_ [_ EL]]]]]]]]]]]]]]]]]]]].
    destruct (firstn_skipn_tables _ _ _ _ _ H Et) as [Nt [Tf _]].
    assert (L1 : length (cp_weights p) <> 1%nat).
    { rewrite <- EL. intros E1. assert (Hl : (length (zsort (dkeys (s_views s))) <= 1)%nat).
      { rewrite <- Tf, firstn_length. lia. }
      rewrite zsort_length in Hl. destruct (dkeys (s_views s)) as [|k1 [|k2 ks]]; simpl in Hl; try lia.
      - destruct Hva.
      - destruct Hva as [<-|[]], Hvb as [<-|[]]. congruence. }
    destruct (log_pflip_drawn _ _ _ _ Hd L1 El) as [j [y0 [J1 J2]]].
    assert (J3 : nth_error (cp_tables p) j = Some vb).
    { clear - J1. revert J1. generalize (cp_props p) as q. revert j. induction (cp_tables p) as [|t l IH]; intros [|j] [|q0 q] E;
        simpl in *; try discriminate; [congruence|eapply IH; exact E]. }
    assert (i = j).
    { eapply NoDup_nth_error; [exact Nt| |congruence]. apply nth_error_Some. congruence. }
    subst j. congruence. }
  intros q x y v Hq Hx Hy Hne. rewrite EC in Hq.
  destruct (Z.eq_dec x c) as [->|Hxc].
  - rewrite Zc. intros E0. injection E0 as <-. rewrite Zo by congruence. apply (Key q y Hq Hx Hy). congruence.
  - rewrite (Zo x Hxc). destruct (Z.eq_dec y c) as [->|Hyc].
    + rewrite Zc. intros Hxv E0. injection E0 as ->. exact (Key q x Hq Hy Hx Hxc Hxv).
    + rewrite (Zo y Hyc). intros Hxv. exact (Hci q x y v Hq Hx Hy Hne Hxv).
Qed.
