(** Facts about the model of the external samplers. *)
From Verif Require Import P06_Dim.
From Verif Require Export Backends StateFacts ProgressFacts.
From Coq Require Import Lia Permutation.
Local Open Scope R_scope.

(* ------------------------------------------------------------------ *)
(** ** Lists *)

Lemma nth_error_range n i : (i < Z.to_nat n)%nat -> nth_error (range n) i = Some (Z.of_nat i).
Proof.
  intros H. unfold range. rewrite nth_error_map.
  assert (E : nth_error (seq 0 (Z.to_nat n)) i = Some i).
  { rewrite (nth_error_nth' _ 0%nat) by (rewrite seq_length; exact H). rewrite seq_nth by exact H. reflexivity. }
  rewrite E. reflexivity.
Qed.

Lemma NoDup_range n : NoDup (range n).
Proof.
  unfold range. apply FinFun.Injective_map_NoDup; [|apply seq_NoDup]. intros a b. apply Nat2Z.inj.
Qed.

(** [{k: i for (i, k) in enumerate(l)}] of distinct elements: the position. *)
Lemma nth_combine {A B} (l : list A) (m : list B) i :
  nth_error (combine l m) i =
    match nth_error l i, nth_error m i with Some x, Some y => Some (x, y) | _, _ => None end.
Proof.
  revert m i. induction l as [|x l IH]; intros [|y m] [|i]; simpl; try reflexivity.
  - destruct (nth_error l i); reflexivity.
  - apply IH.
Qed.

Lemma dkeys_combine {B} (l : list Z) (m : list B) : length l = length m -> dkeys (combine l m) = l.
Proof. apply map_fst_combine. Qed.
Lemma dvals_combine {B} (l : list Z) (m : list B) : length l = length m -> dvals (combine l m) = m.
Proof.
  revert m. induction l as [|x l IH]; intros [|y m] H; try discriminate; [reflexivity|].
  simpl. f_equal. apply IH. simpl in H. lia.
Qed.

Lemma dget_nth {A} (d : dict A) k x : NoDup (dkeys d) ->
  (dget k d = Some x <-> exists i, nth_error d i = Some (k, x)).
Proof.
  intros Hn. split.
  - intros H. apply dget_In, In_nth_error in H. exact H.
  - intros [i Hi]. apply dget_In_NoDup; [exact Hn|]. eapply nth_error_In; exact Hi.
Qed.

Lemma coder_eq l : NoDup l -> coder l = combine l (range (Z.of_nat (length l))).
Proof.
  intros H. unfold coder. assert (K : dkeys (combine l (range (Z.of_nat (length l)))) = l).
  { apply dkeys_combine. rewrite length_range. lia. }
  assert (Hn : NoDup (dkeys (combine l (range (Z.of_nat (length l)))))) by (rewrite K; exact H).
  revert Hn. generalize (combine l (range (Z.of_nat (length l)))). clear.
  intros d Hn. unfold dict_of.
  assert (G : forall (d acc : dict Z), NoDup (dkeys (acc ++ d)) -> fold_left (fun d kv => dset (fst kv) (snd kv) d) d acc = acc ++ d).
  { induction d0 as [|[k x] d0 IH]; intros acc H; simpl; [rewrite app_nil_r; reflexivity|].
    assert (E : dset k x acc = acc ++ [(k, x)]).
    { assert (Hk : ~ In k (dkeys acc)).
      { intros Hi. unfold dkeys in H. rewrite map_app in H. simpl in H. apply NoDup_remove_2 in H. apply H, in_or_app. left. exact Hi. }
      clear - Hk. induction acc as [|[k' x'] acc IH]; [reflexivity|]. simpl.
      destruct (Z.eqb_spec k k') as [->|]; [destruct Hk; left; reflexivity|]. f_equal. apply IH. intros Hi. apply Hk. right. exact Hi. }
    rewrite E, IH; [rewrite <- app_assoc; reflexivity|]. rewrite <- app_assoc. exact H. }
  rewrite (G d []); [reflexivity|exact Hn].
Qed.

Lemma coder_spec l k i : NoDup l ->
  (dget k (coder l) = Some i <-> (0 <= i)%Z /\ nth_error l (Z.to_nat i) = Some k).
Proof.
  intros H. rewrite coder_eq by exact H.
  assert (L : length l = length (range (Z.of_nat (length l)))) by (rewrite length_range; lia).
  rewrite dget_nth by (rewrite dkeys_combine; assumption). split.
  - intros [j Hj]. rewrite nth_combine in Hj. destruct (nth_error l j) as [x|] eqn:E; [|discriminate].
    assert (Hl : (j < length l)%nat) by (apply nth_error_Some; congruence).
    rewrite nth_error_range in Hj by lia. injection Hj as -> <-. rewrite Nat2Z.id. split; [lia|exact E].
  - intros [Hi E]. exists (Z.to_nat i). rewrite nth_combine, E.
    assert (Hl : (Z.to_nat i < length l)%nat) by (apply nth_error_Some; congruence).
    rewrite nth_error_range by lia. rewrite Z2Nat.id by exact Hi. reflexivity.
Qed.

Lemma uniq_in x l : In x (uniq l) <-> In x l.
Proof. unfold uniq. rewrite zsort_in. apply nodup_In. Qed.
Lemma uniq_NoDup l : NoDup (uniq l).
Proof. apply zsort_NoDup, NoDup_nodup. Qed.

Lemma seq_each {A B} (f : A -> res B) l out :
  rsequence (map f l) = Ok out <-> Forall2 (fun a b => f a = Ok b) l out.
Proof.
  revert out. induction l as [|a l IH]; intros out; simpl.
  - split; [intros E; injection E as <-; constructor|intros H; inversion H; reflexivity].
  - split.
    + destruct (f a) as [b|] eqn:E; cbn [rbind]; [|discriminate].
      destruct (rsequence (map f l)) as [bs|]; cbn [rbind]; [|discriminate]. intros Eo. injection Eo as <-.
      constructor; [exact E|]. apply IH. reflexivity.
    + intros H. inversion H as [|? b ? bs Hb Hbs]; subst. rewrite Hb. cbn [rbind].
      rewrite (proj2 (IH bs) Hbs). reflexivity.
Qed.

Lemma Forall2_nth {A B} (P : A -> B -> Prop) l m i x : Forall2 P l m -> nth_error l i = Some x ->
  exists y, nth_error m i = Some y /\ P x y.
Proof.
  intros H. revert i. induction H as [|a b l m Hab _ IH]; intros [|i]; simpl; try discriminate.
  - intros E. injection E as <-. eauto.
  - apply IH.
Qed.
Lemma Forall2_nth' {A B} (P : A -> B -> Prop) l m i y : Forall2 P l m -> nth_error m i = Some y ->
  exists x, nth_error l i = Some x /\ P x y.
Proof.
  intros H. revert i. induction H as [|a b l m Hab _ IH]; intros [|i]; simpl; try discriminate.
  - intros E. injection E as <-. eauto.
  - apply IH.
Qed.

(* ------------------------------------------------------------------ *)
(** ** New views *)

Lemma seat_given_data l : forall c, NoDup (map fst l) -> (forall r, In r (map fst l) -> dget r (c_data c) = None) ->
  exists c', seat_given l c = Ok c' /\ c_data c' = c_data c ++ l /\ c_alpha c' = c_alpha c.
Proof.
  induction l as [|[i k] l IH]; intros c Hn Hr; simpl; [exists c; rewrite app_nil_r; auto|].
  inversion Hn as [|? ? Hn1 Hn2]; subst.
  assert (H0 : dget i (c_data c) = None) by (apply Hr; left; reflexivity).
  unfold crp_incorporate. unfold dmem at 1. rewrite H0. cbn [rbind].
  match goal with |- context [seat_given l ?t] => set (c1 := t) end.
  assert (E : c_data c1 = c_data c ++ [(i, k)]).
  { unfold c1. cbn [c_data]. clear - H0. induction (c_data c) as [|[j x] d IH]; [reflexivity|]. simpl in *.
    destruct (i =? j)%Z; [discriminate|]. f_equal. apply IH. exact H0. }
  assert (E1 : c_data c1 = dset i k (c_data c)) by reflexivity.
  destruct (IH c1 Hn2) as [c' [E' [D' A']]].
  { intros r Hi. rewrite E1, dget_dset. destruct (Z.eqb_spec r i) as [->|]; [contradiction|]. apply Hr. right. exact Hi. }
  exists c'. split; [exact E'|]. split; [rewrite D', E, <- app_assoc; reflexivity|exact A'].
Qed.

Lemma view_make_given X o seed z : X <> [] ->
  exists w, view_make X o seed (Some z) = Ok w /\ v_rows w = combine (range (Z.of_nat (length z))) z /\
    c_alpha (v_crp w) = vs_alpha seed /\ v_grid w = vs_grid seed /\ v_dims w = [] /\ v_out w = o.
Proof.
  intros HX. unfold view_make. destruct X as [|[c0 l0] X]; [congruence|].
  assert (L : length (range (Z.of_nat (length z))) = length z) by (rewrite length_range; lia).
  destruct (seat_given_data (combine (range (Z.of_nat (length z))) z) (crp_new (vs_alpha seed))) as [c' [E [D A]]].
  - rewrite map_fst_combine by exact L. apply NoDup_range.
  - intros r _. reflexivity.
  - rewrite E. cbn [rbind]. eexists. split; [reflexivity|]. unfold v_rows. cbn [v_crp v_grid v_dims v_out].
    split; [rewrite D; reflexivity|]. split; [rewrite A; reflexivity|]. auto.
Qed.

(** A state some of whose views, those of [extra], may have no columns. *)
Record tinv (n : nat) (extra : list Z) (s : state) : Prop := {
  ti_nodup : NoDup (s_outs s);
  ti_ne : s_outs s <> [];
  ti_X : forall c, In c (dkeys (s_X s)) <-> In c (s_outs s);
  ti_XN : NoDup (dkeys (s_X s));
  ti_len : forall c l, dget c (s_X s) = Some l -> length l = n;
  ti_crp : crp_inv (s_crp s);
  ti_zv : forall c, In c (dkeys (s_zv s)) <-> In c (s_outs s);
  ti_nv : NoDup (dkeys (s_views s));
  ti_views : forall v, In v (dkeys (s_views s)) <-> In v (dkeys (c_counts (s_crp s))) \/ In v extra;
  ti_view : forall v w, dget v (s_views s) = Some w -> vok (tab (s_X s)) n (s_zv s) v w
}.

Lemma sinv_tinv n s : sinv n s -> tinv n [] s.
Proof. intros []. constructor; auto. intros v. rewrite si_views. simpl. tauto. Qed.

Lemma tinv_sinv n extra s : tinv n extra s -> (forall v, In v extra -> exists c, dget c (s_zv s) = Some v) -> sinv n s.
Proof.
  intros H He. destruct H. constructor; auto. intros v. rewrite ti_views0. split; [|auto].
  intros [Hv|Hv]; [exact Hv|]. destruct (He v Hv) as [c Hc]. eapply crp_rows_counts; [exact ti_crp0|exact Hc].
Qed.

Lemma tinv_crp n extra s k : tinv n extra s -> crp_inv k -> c_data k = c_data (s_crp s) ->
  c_counts k = c_counts (s_crp s) -> tinv n extra (set_scrp s k).
Proof.
  intros H Hk Ed Ec. destruct H. constructor; cbn [s_outs s_X s_crp s_views set_scrp]; auto; unfold s_zv in *; cbn [s_crp set_scrp]; rewrite ?Ed, ?Ec; auto.
Qed.

Lemma tinv_nonempty n extra s : tinv n extra s -> s_X s <> [].
Proof.
  intros H E. pose proof (ti_ne _ _ _ H) as Hne. destruct (s_outs s) as [|o os] eqn:Eo; [congruence|].
  assert (Ho : In o (dkeys (s_X s))) by (apply (ti_X _ _ _ H); rewrite Eo; left; reflexivity).
  rewrite E in Ho. destruct Ho.
Qed.

(** The new views of [parts], numbered from [index]. *)
Definition fresh_view (seeds : nat -> vseed) (index : Z) (parts : list (list Z)) (ws : dict view) : Prop :=
  forall i part, nth_error parts i = Some part -> exists w,
    dget (index + Z.of_nat i)%Z ws = Some w /\ v_rows w = combine (range (Z.of_nat (length part))) part /\
    c_alpha (v_crp w) = vs_alpha (seeds (length parts - 1 - i)%nat) /\
    v_grid w = vs_grid (seeds (length parts - 1 - i)%nat) /\ v_dims w = [].

Lemma append_views_total n seeds parts : forall extra s index,
  tinv n extra s -> (forall v, In v (dkeys (s_views s)) -> (v < index)%Z) ->
  (forall p, In p parts -> length p = n) ->
  exists ws, append_views (s_X s) seeds index parts (s_views s) = Ok ws /\
    tinv n (extra ++ map (fun i => (index + Z.of_nat i)%Z) (seq 0 (length parts))) (set_views s ws) /\
    (forall v, (v < index)%Z -> dget v ws = dget v (s_views s)) /\
    length ws = (length (s_views s) + length parts)%nat /\
    fresh_view seeds index parts ws.
Proof.
  induction parts as [|part parts IH]; intros extra s index H Hlt Hp.
  { exists (s_views s). cbn [append_views length seq map]. rewrite app_nil_r, Nat.add_0_r. split; [reflexivity|].
    split; [destruct s; exact H|]. split; [reflexivity|]. split; [reflexivity|]. intros [|i] p Hi; discriminate. }
  cbn [append_views].
  assert (Hf : ~ In index (dkeys (s_views s))) by (intros Hi; specialize (Hlt _ Hi); lia).
  assert (Hm : dmem index (s_views s) = false).
  { destruct (dmem index (s_views s)) eqn:E; [|reflexivity]. apply dmem_in in E. contradiction. }
  rewrite Hm.
  destruct (view_make_given (s_X s) (crp_id_view + index) (seeds (length parts)) part (tinv_nonempty _ _ _ H))
    as [w [Ew [Rw [Aw [Gw [Dw Ow]]]]]].
  rewrite Ew. cbn [rbind].
  destruct (view_make_ok (s_X s) (tab (s_X s)) n _ _ (Some part) _ (ti_len _ _ _ H) (Hp part (or_introl eq_refl)) Ew)
    as [Vw [_ [_ Nw]]].
  set (s1 := set_views s (dset index w (s_views s))).
  assert (Hk : forall v, In v (dkeys (s_views s1)) <-> v = index \/ In v (dkeys (s_views s))).
  { intros v. unfold s1. cbn [s_views set_views]. apply in_dkeys_dset. }
  assert (Hcn : ~ In index (dkeys (c_counts (s_crp s)))).
  { intros Hi. apply Hf. apply (ti_views _ _ _ H). left. exact Hi. }
  assert (H1 : tinv n (extra ++ [index]) s1).
  { destruct H. constructor; auto.
    - unfold s1. cbn [s_views set_views]. apply NoDup_dset. exact ti_nv0.
    - intros v. rewrite Hk, ti_views0, in_app_iff. change (s_crp s1) with (s_crp s). simpl. intuition congruence.
    - intros v w'. unfold s1. cbn [s_views set_views]. rewrite dget_dset. destruct (Z.eqb_spec v index) as [->|].
      + intros E. injection E as <-. split; [exact Vw|]. split; [exact Ow|]. split; [|exact Nw].
        intros c. rewrite Dw. simpl. split; [tauto|]. intros E. destruct Hcn. eapply crp_rows_counts; [exact ti_crp0|exact E].
      + apply ti_view0. }
  destruct (IH (extra ++ [index]) s1 (index + 1)%Z H1) as [ws [E [T [O [L F]]]]].
  { intros v Hv. apply Hk in Hv. destruct Hv as [->|Hv]; [lia|]. specialize (Hlt v Hv). lia. }
  { intros p Hin. apply Hp. right. exact Hin. }
  exists ws. split; [exact E|]. split.
  { change (set_views s ws) with (set_views s1 ws).
    replace (extra ++ map (fun i => (index + Z.of_nat i)%Z) (seq 0 (length (part :: parts))))
      with ((extra ++ [index]) ++ map (fun i => (index + 1 + Z.of_nat i)%Z) (seq 0 (length parts))); [exact T|].
    rewrite <- app_assoc. f_equal. cbn [length seq map app]. f_equal; [lia|]. rewrite <- seq_shift, map_map.
    apply map_ext. intros a. lia. }
  split.
  { intros v Hv. rewrite O by lia. unfold s1. cbn [s_views set_views]. apply dget_dset_other. lia. }
  split.
  { rewrite L. unfold s1. cbn [s_views set_views length].
    assert (El : length (dset index w (s_views s)) = S (length (s_views s))).
    { clear - Hf. induction (s_views s) as [|[k x] d IHd]; [reflexivity|]. simpl in *.
      destruct (Z.eqb_spec index k) as [->|]; [destruct Hf; auto|]. simpl. f_equal. apply IHd. tauto. }
    rewrite El. lia. }
  intros [|i] p Hi; simpl in Hi.
  - injection Hi as <-. exists w. rewrite Z.add_0_r, O by lia. unfold s1. cbn [s_views set_views]. rewrite dget_dset_same.
    cbn [length]. replace (S (length parts) - 1 - 0)%nat with (length parts) by lia. auto.
  - destruct (F i p Hi) as [w' [Ew' Q]]. exists w'. replace (index + Z.of_nat (S i))%Z with (index + 1 + Z.of_nat i)%Z by lia.
    cbn [length]. replace (S (length parts) - 1 - S i)%nat with (length parts - 1 - i)%nat by lia. auto.
Qed.

(* ------------------------------------------------------------------ *)
(** ** Moving a column *)

Lemma tinv_used n extra s v : tinv n extra s -> ~ In v extra ->
  (In v (dkeys (s_views s)) <-> exists c, dget c (s_zv s) = Some v).
Proof.
  intros H He. rewrite (ti_views _ _ _ H). split.
  - intros [Hv|Hv]; [|contradiction]. apply crp_counts_rows; [apply (ti_crp _ _ _ H)|exact Hv].
  - intros [c Hc]. left. eapply crp_rows_counts; [apply (ti_crp _ _ _ H)|exact Hc].
Qed.

Lemma tinv_dim n extra s c : tinv n extra s -> In c (s_outs s) -> exists v w a,
  dget c (s_zv s) = Some v /\ dget v (s_views s) = Some w /\ dget c (v_dims w) = Some a /\ dim_for s c = Ok a.
Proof.
  intros H Hc. apply (ti_zv _ _ _ H) in Hc. apply in_dkeys_Some in Hc. destruct Hc as [v Hv].
  assert (Hi : In v (dkeys (s_views s))).
  { apply (ti_views _ _ _ H). left. eapply crp_rows_counts; [apply (ti_crp _ _ _ H)|exact Hv]. }
  apply in_dkeys_Some in Hi. destruct Hi as [w Hw]. destruct (ti_view _ _ _ H v w Hw) as [_ [_ [D _]]].
  apply D in Hv as Hd. apply in_dkeys_Some in Hd. destruct Hd as [a Ha].
  exists v, w, a. split; [exact Hv|]. split; [exact Hw|]. split; [exact Ha|]. unfold dim_for. rewrite Hv, Hw, Ha. reflexivity.
Qed.

Record moved (c vb : Z) (s s' : state) : Prop := {
  mv_data : same_data s s';
  mv_grid : s_grid s' = s_grid s;
  mv_alpha : c_alpha (s_crp s') = c_alpha (s_crp s);
  mv_zv : forall c', dget c' (s_zv s') = if (c' =? c)%Z then Some vb else dget c' (s_zv s);
  mv_view : forall v w', dget v (s_views s') = Some w' -> exists w,
    dget v (s_views s) = Some w /\ v_crp w' = v_crp w /\ v_grid w' = v_grid w /\
    forall c', c' <> c -> dget c' (v_dims w') = dget c' (v_dims w);
  mv_other : forall c', c' <> c -> dim_for s' c' = dim_for s c'
}.

Lemma migrate_step n extra s c va vb a s' : tinv n extra s -> dget c (s_zv s) = Some va ->
  dim_for s c = Ok a -> ~ In va extra -> In vb extra ->
  migrate_to true s c va vb a = (s', Ok tt) ->
  tinv n extra s' /\ moved c vb s s' /\
  exists wb a', dget vb (s_views s) = Some wb /\ bulk_incorporate (tab (s_X s)) wb c a = (a', Ok tt) /\ dim_for s' c = Ok a'.
Proof.
  intros H Hva Ha Hna Hvb.
  assert (Hne : va <> vb) by congruence.
  assert (Hc : In c (s_outs s)) by (apply (ti_zv _ _ _ H); eapply dget_Some_in; exact Hva).
  destruct (tinv_dim _ _ _ _ H Hc) as [v0 [wa [a0 [Ez0 [Ewa [Ea Ed]]]]]].
  assert (v0 = va) by congruence. subst v0. assert (a0 = a) by congruence. subst a0. clear Ez0 Ed.
  destruct (ti_view _ _ _ H va wa Ewa) as [Va [Oa [Da Ra]]].
  unfold migrate_to. destruct (dget va (c_counts (s_crp s))) as [nva|] eqn:En; [|discriminate].
  rewrite Ewa. assert (Hm : dmem c (v_dims wa) = true) by (apply dmem_in; eapply dget_Some_in; exact Ea).
  unfold view_unincorporate_dim. rewrite !Hm.
  set (wa1 := set_dims wa (ddel c (v_dims wa))). cbn [s_views set_views].
  rewrite dget_dset_other by congruence.
  assert (Hib : In vb (dkeys (s_views s))) by (apply (ti_views _ _ _ H); right; exact Hvb).
  apply in_dkeys_Some in Hib. destruct Hib as [wb Ewb]. rewrite Ewb.
  destruct (ti_view _ _ _ H vb wb Ewb) as [Vb [Ob [Db Rb]]].
  destruct (view_incorporate_dim (tab (s_X s)) wb c a true) as [[wb1 a1] r2] eqn:Ei.
  destruct r2 as [[]|e]; cbn [rbind]; [|discriminate].
  destruct (a_score a1) as [lp|]; [|discriminate].
  assert (Hai : ainv a) by (apply (proj2 (proj2 Va) c a Ea)).
  destruct (incorporate_dim_ok (tab (s_X s)) wb c a true wb1 a1 Vb Hai Ei) as [V1 [K1 [C1 [R1 [P1 D1]]]]].
  destruct (incorporate_dim_out _ _ _ _ _ _ _ _ Ei) as [O1 G1].
  assert (Eb : bulk_incorporate (tab (s_X s)) wb c a = (a1, Ok tt)).
  { revert Ei. unfold view_incorporate_dim. destruct (bulk_incorporate (tab (s_X s)) wb c a) as [a2 [[]|]]; [|discriminate].
    intros E. injection E as _ ->. reflexivity. }
  cbn [s_crp set_views].
  destruct (crp_uninc_spec _ _ _ (ti_crp _ _ _ H) Hva) as [k1 [Eu [I1 [D2 [A2 T2]]]]]. rewrite Eu.
  destruct (crp_incorporate k1 c vb) as [k2 [[]|e]] eqn:Ec; [|discriminate].
  destruct (crp_inc_spec _ _ _ _ I1 Ec) as [I2 [_ [D3 [T3 A3]]]].
  assert (Hz : forall c', dget c' (c_data k2) = if (c' =? c)%Z then Some vb else dget c' (s_zv s)).
  { intros c'. rewrite D3, dget_dset, D2. destruct (Z.eqb_spec c' c) as [->|Hn]; [reflexivity|].
    apply dget_ddel_other. exact Hn. }
  pose proof (only_member _ _ _ _ (ti_crp _ _ _ H) Hva En) as Hone.
  set (ws := dset vb wb1 (dset va wa1 (s_views s))).
  set (s2 := if (nva =? 1)%Z then ddel va ws else ws).
  intros E.
  assert (Es : s' = State (s_outs s) (s_X s) k2 (s_grid s) s2 (s_Cd s) (s_Ci s)).
  { unfold s2. destruct (nva =? 1)%Z; [destruct (dmem va (c_counts k2)); [discriminate|]|]; injection E as <-; reflexivity. }
  clear E.
  assert (Nws : NoDup (dkeys ws)) by (unfold ws; do 2 apply NoDup_dset; apply (ti_nv _ _ _ H)).
  assert (Gone : (nva =? 1)%Z = true -> forall c', dget c' (c_data k2) <> Some va).
  { intros E1 c' Hc'. rewrite Hz in Hc'. destruct (Z.eqb_spec c' c) as [_|Hn]; [congruence|].
    apply Hn. apply (proj1 Hone E1). exact Hc'. }
  assert (G2 : forall v, dget v s2 = if (nva =? 1)%Z && (v =? va)%Z then None
      else if (v =? vb)%Z then Some wb1 else if (v =? va)%Z then Some wa1 else dget v (s_views s)).
  { intros v. unfold s2. assert (Gw : dget v ws = if (v =? vb)%Z then Some wb1 else if (v =? va)%Z then Some wa1 else dget v (s_views s)).
    { unfold ws. rewrite !dget_dset. reflexivity. }
    destruct (nva =? 1)%Z; cbn [andb]; [rewrite dget_ddel by exact Nws; rewrite Gw; reflexivity|exact Gw]. }
  assert (N2 : NoDup (dkeys s2)) by (unfold s2; destruct (nva =? 1)%Z; [apply NoDup_ddel|]; exact Nws).
  assert (Hmv : forall v w', dget v s2 = Some w' -> exists w, dget v (s_views s) = Some w /\ v_crp w' = v_crp w /\
     v_grid w' = v_grid w /\ v_out w' = v_out w /\ vinv (tab (s_X s)) w' /\
     (forall c', c' <> c -> dget c' (v_dims w') = dget c' (v_dims w)) /\ (In c (dkeys (v_dims w')) <-> v = vb)).
  { intros v w'. rewrite G2. destruct ((nva =? 1)%Z && (v =? va)%Z); [discriminate|].
    destruct (Z.eqb_spec v vb) as [->|Hv1].
    - intros E. injection E as <-. exists wb. split; [exact Ewb|]. split; [exact P1|]. split; [congruence|]. split; [congruence|].
      split; [exact V1|]. rewrite D1. split; [intros c' Hn; apply dget_dset_other; exact Hn|]. rewrite in_dkeys_dset. tauto.
    - destruct (Z.eqb_spec v va) as [->|Hv2].
      + intros E. injection E as <-. exists wa. split; [exact Ewa|]. repeat (split; [reflexivity|]). split.
        * destruct (unincorporate_dim_ok (tab (s_X s)) wa c wa1 Va) as [V _]; [|exact V].
          unfold view_unincorporate_dim. rewrite Hm. reflexivity.
        * cbn [v_dims wa1 set_dims]. split; [intros c' Hn; apply dget_ddel_other; exact Hn|].
          rewrite in_dkeys_ddel by apply Va. tauto.
      + intros Ew. exists w'. destruct (ti_view _ _ _ H v w' Ew) as [V [_ [D _]]]. split; [exact Ew|].
        repeat (split; [reflexivity|]). split; [exact V|]. split; [reflexivity|]. rewrite D. split; congruence. }
  assert (T : tinv n extra s').
  { rewrite Es. destruct H. constructor; cbn [s_outs s_X s_crp s_views]; auto.
    - intros c'. unfold s_zv. cbn [s_crp]. rewrite <- ti_zv0. split; intros Hi.
      + apply in_dkeys_Some in Hi. destruct Hi as [v Hi]. rewrite Hz in Hi.
        destruct (Z.eqb_spec c' c) as [->|]; [apply ti_zv0; exact Hc|eapply dget_Some_in; exact Hi].
      + apply in_dkeys_Some in Hi. destruct Hi as [v Hi].
        destruct (Z.eq_dec c' c) as [E|E].
        * eapply dget_Some_in. rewrite Hz. subst c'. rewrite Z.eqb_refl. reflexivity.
        * apply Z.eqb_neq in E. eapply dget_Some_in. rewrite Hz, E. exact Hi.
    - intros v. assert (Hcnt : In v (dkeys (c_counts k2)) <-> exists c', dget c' (c_data k2) = Some v).
      { split; [apply crp_counts_rows; exact I2|]. intros [c' Hc']. eapply crp_rows_counts; [exact I2|exact Hc']. }
      rewrite Hcnt. split.
      + intros Hi. apply in_dkeys_Some in Hi. destruct Hi as [w' Hw']. destruct (Hmv v w' Hw') as [w [Ew _]].
        apply dget_Some_in in Ew. apply ti_views0 in Ew. destruct Ew as [Ew|]; [|auto].
        apply crp_counts_rows in Ew; [|exact ti_crp0]. destruct Ew as [c' Hc'].
        destruct (Z.eq_dec v vb) as [->|Hvb1]; [auto|]. left.
        destruct (Z.eq_dec v va) as [->|Hva1].
        * rewrite G2 in Hw'. rewrite Z.eqb_refl, andb_true_r in Hw'. destruct (nva =? 1)%Z eqn:E1; [discriminate|].
          destruct (existsb (fun kv => (snd kv =? va)%Z && negb (fst kv =? c)%Z) (s_zv s)) eqn:Eo.
          -- apply existsb_exists in Eo. destruct Eo as [[c2 v2] [Hi Ho]]. simpl in Ho.
             apply andb_true_iff in Ho. destruct Ho as [Ho1 Ho2]. apply Z.eqb_eq in Ho1. subst v2.
             apply negb_true_iff in Ho2. exists c2. rewrite Hz, Ho2.
             apply dget_In_NoDup; [apply ti_crp0|exact Hi].
          -- exfalso. assert (Hf : false = true); [|discriminate]. apply Hone. intros c2 Hc2.
             destruct (Z.eq_dec c2 c) as [|Hn]; [assumption|]. exfalso.
             assert (Ht : existsb (fun kv => (snd kv =? va)%Z && negb (fst kv =? c)%Z) (s_zv s) = true).
             { apply existsb_exists. exists (c2, va). split; [apply dget_In; exact Hc2|]. simpl.
               rewrite Z.eqb_refl. apply Z.eqb_neq in Hn. rewrite Hn. reflexivity. }
             congruence.
        * change (dget c' (s_zv s) = Some v) in Hc'. exists c'. rewrite Hz. destruct (Z.eqb_spec c' c) as [->|]; [congruence|exact Hc'].
      + intros Hor. assert (Hi : v <> va \/ (nva =? 1)%Z = false).
        { destruct (Z.eq_dec v va) as [->|]; [|auto]. right. destruct (nva =? 1)%Z eqn:E1; [|reflexivity]. exfalso.
          destruct Hor as [[c' Hc']|He]; [exact (Gone eq_refl c' Hc')|contradiction]. }
        assert (Hb : (nva =? 1)%Z && (v =? va)%Z = false).
        { destruct Hi as [Hi| ->]; [apply Z.eqb_neq in Hi; rewrite Hi, andb_false_r; reflexivity|reflexivity]. }
        pose proof (G2 v) as Gv. rewrite Hb in Gv. destruct (Z.eq_dec v vb) as [Ev1|Hvb1].
        { rewrite (proj2 (Z.eqb_eq v vb) Ev1) in Gv. eapply dget_Some_in; exact Gv. }
        rewrite (proj2 (Z.eqb_neq v vb) Hvb1) in Gv. destruct (Z.eq_dec v va) as [Ev2|Hva1].
        { rewrite (proj2 (Z.eqb_eq v va) Ev2) in Gv. eapply dget_Some_in; exact Gv. }
        rewrite (proj2 (Z.eqb_neq v va) Hva1) in Gv.
        assert (Hin : In v (dkeys (s_views s))).
        { apply ti_views0. destruct Hor as [[c' Hc']|He]; [|auto]. left. rewrite Hz in Hc'.
          destruct (c' =? c)%Z; [congruence|]. eapply crp_rows_counts; [exact ti_crp0|exact Hc']. }
        apply in_dkeys_Some in Hin. destruct Hin as [w Hw]. rewrite Hw in Gv. eapply dget_Some_in; exact Gv.
    - intros v w' Hw'. destruct (Hmv v w' Hw') as [w [Ew [E1 [E2 [E3 [E4 [E5 E6]]]]]]].
      destruct (ti_view0 v w Ew) as [_ [O [D R]]]. split; [exact E4|]. split; [congruence|]. split.
      + intros c'. unfold s_zv. cbn [s_crp]. rewrite Hz. destruct (Z.eqb_spec c' c) as [->|Hn].
        * rewrite E6. split; [intros ->; reflexivity|intros E; congruence].
        * rewrite <- D. split; intros Hi; apply in_dkeys_Some in Hi; destruct Hi as [x Hx];
            eapply dget_Some_in; [rewrite <- E5 by exact Hn|rewrite E5 by exact Hn]; exact Hx.
      + unfold v_rows in *. rewrite E1. exact R. }
  split; [exact T|]. split.
  - constructor.
    + rewrite Es. repeat split.
    + rewrite Es. reflexivity.
    + rewrite Es. cbn [s_crp]. congruence.
    + rewrite Es. exact Hz.
    + rewrite Es. cbn [s_views]. intros v w' Hw'. destruct (Hmv v w' Hw') as [w [Ew [E1 [E2 [_ [_ [E5 _]]]]]]]. exists w. auto.
    + intros c' Hn. unfold dim_for. rewrite Es. unfold s_zv. cbn [s_crp s_views]. rewrite Hz, (proj2 (Z.eqb_neq c' c) Hn).
      change (c_data (s_crp s)) with (s_zv s). destruct (dget c' (s_zv s)) as [v|] eqn:Ez; [|reflexivity].
      destruct (dget v s2) as [w'|] eqn:Ew'.
      * destruct (Hmv v w' Ew') as [w [-> [_ [_ [_ [_ [E5 _]]]]]]]. rewrite E5 by exact Hn. reflexivity.
      * exfalso. rewrite G2 in Ew'. destruct ((nva =? 1)%Z && (v =? va)%Z) eqn:Eb1.
        -- apply andb_true_iff in Eb1. destruct Eb1 as [Eb1 Eb2]. apply Z.eqb_eq in Eb2. subst v.
           apply Hn. apply (proj1 Hone Eb1). exact Ez.
        -- destruct (v =? vb)%Z; [discriminate|]. destruct (v =? va)%Z; [discriminate|].
           assert (Hin : In v (dkeys (s_views s))).
           { apply (ti_views _ _ _ H). left. eapply crp_rows_counts; [apply (ti_crp _ _ _ H)|exact Ez]. }
           apply in_dkeys_Some in Hin. destruct Hin as [w Hw]. congruence.
  - exists wb, a1. split; [reflexivity|]. split; [exact Eb|]. unfold dim_for. rewrite Es. unfold s_zv. cbn [s_crp s_views].
    rewrite Hz, Z.eqb_refl, G2. replace ((nva =? 1)%Z && (vb =? va)%Z) with false.
    2:{ symmetry. rewrite (proj2 (Z.eqb_neq vb va)) by congruence. apply andb_false_r. }
    rewrite Z.eqb_refl, D1, dget_dset_same. reflexivity.
Qed.

(** Moving several columns. *)
Record moves (to : list (Z * Z)) (s s' : state) : Prop := {
  ms_data : same_data s s';
  ms_grid : s_grid s' = s_grid s;
  ms_alpha : c_alpha (s_crp s') = c_alpha (s_crp s);
  ms_zv : forall c, dget c (s_zv s') = match dget c to with Some vb => Some vb | None => dget c (s_zv s) end;
  ms_view : forall v w', dget v (s_views s') = Some w' -> exists w,
    dget v (s_views s) = Some w /\ v_crp w' = v_crp w /\ v_grid w' = v_grid w;
  ms_dim : forall c a, dim_for s c = Ok a -> exists a', dim_for s' c = Ok a' /\ akin a a'
}.

(** The columns of [to] are to be moved from old views into views of [extra]. *)
Definition movable (extra : list Z) (s : state) (to : list (Z * Z)) : Prop :=
  NoDup (map fst to) /\
  forall c vb, In (c, vb) to -> In vb extra /\ In c (s_outs s) /\ forall va, dget c (s_zv s) = Some va -> ~ In va extra.

Lemma movable_step extra s s1 c vb to : movable extra s ((c, vb) :: to) -> moved c vb s s1 -> movable extra s1 to.
Proof.
  intros [Hn Hm] M. inversion Hn as [|? ? Hn1 Hn2]; subst. split; [exact Hn2|]. intros c' vb' Hin.
  destruct (Hm c' vb' (or_intror Hin)) as [A [B C]]. split; [exact A|].
  assert (Hne : c' <> c). { intros ->. apply Hn1. change c with (fst (c, vb')). apply in_map. exact Hin. }
  split; [destruct (mv_data _ _ _ _ M) as [-> _]; exact B|]. intros va. rewrite (mv_zv _ _ _ _ M), (proj2 (Z.eqb_neq c' c) Hne). apply C.
Qed.

Lemma moves_step c vb to s s1 s' : ~ In c (map fst to) -> moved c vb s s1 ->
  (forall a, dim_for s c = Ok a -> exists a1, dim_for s1 c = Ok a1 /\ akin a a1) ->
  moves to s1 s' -> moves ((c, vb) :: to) s s'.
Proof.
  intros Hc M Hd N. constructor.
  - eapply same_data_trans; [apply M|apply N].
  - rewrite (ms_grid _ _ _ N). apply M.
  - rewrite (ms_alpha _ _ _ N). apply M.
  - intros c'. rewrite (ms_zv _ _ _ N), (mv_zv _ _ _ _ M). cbn [dget]. destruct (Z.eqb_spec c' c) as [->|].
    + assert (E : dget c to = None). { apply dget_None_notin. exact Hc. } rewrite E. reflexivity.
    + reflexivity.
  - intros v w' Hw'. destruct (ms_view _ _ _ N v w' Hw') as [w1 [E1 [A1 B1]]].
    destruct (mv_view _ _ _ _ M v w1 E1) as [w [E [A [B _]]]]. exists w. split; [exact E|]. split; congruence.
  - intros c' a Ea. assert (H1 : exists a1, dim_for s1 c' = Ok a1 /\ akin a a1).
    { destruct (Z.eq_dec c' c) as [->|Hne]; [apply Hd; exact Ea|].
      exists a. rewrite (mv_other _ _ _ _ M c' Hne). split; [exact Ea|apply akin_refl]. }
    destruct H1 as [a1 [E1 K1]]. destruct (ms_dim _ _ _ N c' a1 E1) as [a2 [E2 K2]]. exists a2. split; [exact E2|].
    eapply akin_trans; eassumption.
Qed.

Lemma moves_nil s : moves [] s s.
Proof.
  constructor; try reflexivity; [apply same_data_refl| |].
  - intros v w Hw. exists w. auto.
  - intros c a Ea. exists a. split; [exact Ea|apply akin_refl].
Qed.

Lemma move_columns_ok n re extra to : forall s s', tinv n extra s -> movable extra s to ->
  (forall c a, In c (map fst to) -> dim_for s c = Ok a -> re a = true) ->
  move_columns re s to = (s', Ok tt) -> tinv n extra s' /\ moves to s s'.
Proof.
  induction to as [|[c vb] to IH]; intros s s' H Hm Hre; cbn [move_columns].
  { intros E. injection E as <-. split; [exact H|apply moves_nil]. }
  destruct (proj2 Hm c vb (or_introl eq_refl)) as [Hvb [Hc Hva]].
  destruct (tinv_dim _ _ _ _ H Hc) as [va [wa [a [Ez [Ewa [Ea Ed]]]]]].
  unfold lookup. rewrite Ez, Ed. rewrite (Hre c a (or_introl eq_refl) Ed).
  destruct (migrate_to true s c va vb a) as [s1 [[]|e]] eqn:Em; [|discriminate].
  destruct (migrate_step n extra s c va vb a s1 H Ez Ed (Hva va Ez) Hvb Em) as [H1 [M1 [wb [a1 [Ewb [Eb Ed1]]]]]].
  pose proof (proj1 Hm) as Hn. inversion Hn as [|? ? Hn1 Hn2]; subst.
  intros E. destruct (IH s1 s' H1 (movable_step _ _ _ _ _ _ Hm M1)) as [H2 M2]; [|exact E|].
  { intros c' a' Hin Ea'. apply (Hre c' a'); [right; exact Hin|]. rewrite <- (mv_other _ _ _ _ M1 c'); [exact Ea'|].
    intros ->. contradiction. }
  split; [exact H2|]. apply (moves_step c vb to s s1 s' Hn1 M1); [|exact M2].
  intros a' Ea'. assert (a' = a) by congruence. subst a'. exists a1. split; [exact Ed1|].
  apply (bulk_ok (tab (s_X s)) wb c a a1); [apply (ti_view _ _ _ H vb wb Ewb)| |exact Eb].
  apply (proj2 (proj2 (proj1 (ti_view _ _ _ H va wa Ewa))) c a Ea).
Qed.

Lemma migrate_goes n extra s c va vb a : tinv n extra s -> dget c (s_zv s) = Some va -> dim_for s c = Ok a ->
  ~ In va extra -> In vb extra -> eager a -> exists s', migrate_to true s c va vb a = (s', Ok tt).
Proof.
  intros H Hva Ha Hna Hvb He.
  assert (Hne : va <> vb) by congruence.
  assert (Hc : In c (s_outs s)) by (apply (ti_zv _ _ _ H); eapply dget_Some_in; exact Hva).
  destruct (tinv_dim _ _ _ _ H Hc) as [v0 [wa [a0 [Ez0 [Ewa [Ea Ed]]]]]].
  assert (v0 = va) by congruence. subst v0. assert (a0 = a) by congruence. subst a0. clear Ez0 Ed.
  destruct (ti_view _ _ _ H va wa Ewa) as [Va [Oa [Da Ra]]].
  assert (Hcn : In va (dkeys (c_counts (s_crp s)))) by (eapply crp_rows_counts; [apply (ti_crp _ _ _ H)|exact Hva]).
  apply in_dkeys_Some in Hcn. destruct Hcn as [nva En].
  assert (Hib : In vb (dkeys (s_views s))) by (apply (ti_views _ _ _ H); right; exact Hvb).
  apply in_dkeys_Some in Hib. destruct Hib as [wb Ewb].
  destruct (ti_view _ _ _ H vb wb Ewb) as [Vb [Ob [Db Rb]]].
  assert (Hai : ainv a) by (apply (proj2 (proj2 Va) c a Ea)).
  destruct (incorporate_total (tab (s_X s)) c wa a Va Ea He wb a (proj1 Vb)) as [b1 [lp [Ei [Es _]]]].
  { intros r Hr. apply Ra, Rb, Hr. }
  { exact Hai. }
  { apply asim_refl, He. }
  unfold migrate_to. rewrite En, Ewa.
  assert (Hm : dmem c (v_dims wa) = true) by (apply dmem_in; eapply dget_Some_in; exact Ea).
  unfold view_unincorporate_dim. rewrite !Hm. cbn [s_views set_views]. rewrite dget_dset_other by congruence.
  rewrite Ewb, Ei. cbn [rbind]. rewrite Es. cbn [s_crp set_views].
  destruct (crp_uninc_spec _ _ _ (ti_crp _ _ _ H) Hva) as [k1 [Eu [I1 [D1 _]]]]. rewrite Eu.
  destruct (crp_incorporate k1 c vb) as [k2 r2] eqn:Ec.
  assert (Hno : dget c (c_data k1) = None) by (rewrite D1; apply dget_ddel_same, (ti_crp _ _ _ H)).
  assert (r2 = Ok tt) as ->.
  { unfold crp_incorporate in Ec. unfold dmem in Ec at 1. rewrite Hno in Ec. congruence. }
  destruct (crp_inc_spec _ _ _ _ I1 Ec) as [I2 [_ [D2 _]]].
  pose proof (only_member _ _ _ _ (ti_crp _ _ _ H) Hva En) as Hone.
  destruct (nva =? 1)%Z; [|eauto].
  assert (Hdm : dmem va (c_counts k2) = false).
  { destruct (dmem va (c_counts k2)) eqn:Edm; [|reflexivity]. exfalso. apply dmem_in in Edm. apply crp_counts_rows in Edm; [|exact I2].
    destruct Edm as [c' Hc']. rewrite D2, dget_dset, D1 in Hc'. destruct (Z.eqb_spec c' c) as [_|Hn]; [congruence|].
    rewrite dget_ddel_other in Hc' by exact Hn. apply Hn. apply (proj1 Hone eq_refl). exact Hc'. }
  rewrite Hdm. eauto.
Qed.

Lemma move_columns_total n re extra to : (forall a, eager a -> re a = true) -> forall s, tinv n extra s -> movable extra s to ->
  (forall c a, In c (map fst to) -> dim_for s c = Ok a -> eager a) ->
  exists s', move_columns re s to = (s', Ok tt) /\
    forall c a, In c (map fst to) -> dim_for s c = Ok a -> exists a', dim_for s' c = Ok a' /\ asim a a'.
Proof.
  intros Hre. induction to as [|[c vb] to IH]; intros s H Hm He; cbn [move_columns].
  { exists s. split; [reflexivity|]. intros c a []. }
  destruct (proj2 Hm c vb (or_introl eq_refl)) as [Hvb [Hc Hva]].
  destruct (tinv_dim _ _ _ _ H Hc) as [va [wa [a [Ez [Ewa [Ea Ed]]]]]].
  pose proof (He c a (or_introl eq_refl) Ed) as Hea.
  unfold lookup. rewrite Ez, Ed, (Hre a Hea).
  destruct (migrate_goes n extra s c va vb a H Ez Ed (Hva va Ez) Hvb Hea) as [s1 Em]. rewrite Em.
  destruct (migrate_step n extra s c va vb a s1 H Ez Ed (Hva va Ez) Hvb Em) as [H1 [M1 [wb [a1 [Ewb [Eb Ed1]]]]]].
  pose proof (proj1 Hm) as Hn. inversion Hn as [|? ? Hn1 Hn2]; subst.
  pose proof (movable_step _ _ _ _ _ _ Hm M1) as Hm1.
  assert (Hne : forall c', In c' (map fst to) -> c' <> c) by (intros c' Hin ->; contradiction).
  destruct (IH s1 H1 Hm1) as [s' [E Hs]].
  { intros c' a' Hin Ea'. apply (He c' a'); [right; exact Hin|]. rewrite <- (mv_other _ _ _ _ M1 c' (Hne c' Hin)). exact Ea'. }
  exists s'. split; [exact E|]. intros c' a' [Hc'|Hin] Ea'.
  - simpl in Hc'. subst c'. assert (a' = a) by congruence. subst a'.
    assert (Hre1 : forall c' a0, In c' (map fst to) -> dim_for s1 c' = Ok a0 -> re a0 = true).
    { intros c' a0 Hin E0. apply Hre, (He c' a0); [right; exact Hin|]. rewrite <- (mv_other _ _ _ _ M1 c' (Hne c' Hin)). exact E0. }
    assert (Same : dim_for s' c = dim_for s1 c).
    { clear IH Hs Hm. revert H1 Hm1 Hre1 E Hn1. clear. revert s1. induction to as [|[c1 v1] to IH]; intros s1 H1 Hm1 Hre1; cbn [move_columns].
      - intros E. injection E as <-. reflexivity.
      - destruct (proj2 Hm1 c1 v1 (or_introl eq_refl)) as [Hvb [Hc Hva]].
        destruct (tinv_dim _ _ _ _ H1 Hc) as [va [wa [a [Ez [Ewa [Ea Ed]]]]]].
        unfold lookup. rewrite Ez, Ed, (Hre1 c1 a (or_introl eq_refl) Ed).
        destruct (migrate_to true s1 c1 va v1 a) as [s2 [[]|e]] eqn:Em; [|discriminate].
        destruct (migrate_step n extra s1 c1 va v1 a s2 H1 Ez Ed (Hva va Ez) Hvb Em) as [H2 [M2 _]].
        intros E Hn1. rewrite (IH s2 H2 (movable_step _ _ _ _ _ _ Hm1 M2)); [|intros c2 a2 Hin E2|exact E|intros Hin; apply Hn1; right; exact Hin].
        + apply (mv_other _ _ _ _ M2). intros ->. apply Hn1. left. reflexivity.
        + apply (Hre1 c2 a2); [right; exact Hin|]. rewrite <- (mv_other _ _ _ _ M2 c2); [exact E2|]. intros ->.
          pose proof (proj1 Hm1) as Hn. inversion Hn; subst. contradiction. }
    exists a1. split; [rewrite Same; exact Ed1|].
    apply (asim_bulk (tab (s_X s)) wb c a a a1); [|apply asim_refl, Hea|exact Eb].
    apply (proj2 (proj2 (proj1 (ti_view _ _ _ H va wa Ewa))) c a Ea).
  - apply Hs; [exact Hin|]. rewrite (mv_other _ _ _ _ M1 c' (Hne c' Hin)). exact Ea'.
Qed.

(* ------------------------------------------------------------------ *)
(** ** Taking partitions *)

(** The state has taken the partitions: column [c] is in the view of its partition, and
    the rows of that view are grouped by it. *)
Record taken (n : nat) (seeds : nat -> vseed) (assign : list (Z * Z)) (parts : list (list Z)) (s s' : state) : Prop := {
  tk_data : same_data s s';
  tk_grid : s_grid s' = s_grid s;
  tk_alpha : c_alpha (s_crp s') = c_alpha (s_crp s);
  tk_views : exists offset,
    (forall v, In v (dkeys (s_views s)) -> (v < offset)%Z) /\
    (forall v, In v (dkeys (s_views s')) <-> exists i, (i < length parts)%nat /\ v = (offset + Z.of_nat i)%Z) /\
    (forall c k, In (c, k) assign -> dget c (s_zv s') = Some (k + offset)%Z) /\
    (forall i part, nth_error parts i = Some part -> exists w, dget (offset + Z.of_nat i)%Z (s_views s') = Some w /\
       v_rows w = combine (range (Z.of_nat n)) part /\
       c_alpha (v_crp w) = vs_alpha (seeds (length parts - 1 - i)%nat) /\
       v_grid w = vs_grid (seeds (length parts - 1 - i)%nat));
  tk_dim : forall c a, dim_for s c = Ok a -> exists a', dim_for s' c = Ok a' /\ akin a a'
}.

(** The answer fits the state. *)
Definition fits (n : nat) (s : state) (assign : list (Z * Z)) (parts : list (list Z)) : Prop :=
  NoDup (map fst assign) /\ (forall c, In c (map fst assign) <-> In c (s_outs s)) /\
  (forall c k, In (c, k) assign -> (0 <= k < Z.of_nat (length parts))%Z) /\
  (forall p, In p parts -> length p = n).
(** Every partition is used. *)
Definition onto (assign : list (Z * Z)) (parts : list (list Z)) : Prop :=
  forall i, (i < length parts)%nat -> exists c, In (c, Z.of_nat i) assign.

Section Take.
  Context (n : nat) (re : adim -> bool) (seeds : nat -> vseed) (s : state) (assign : list (Z * Z)) (parts : list (list Z)).
  Context (H : sinv n s) (HF : fits n s assign parts).
  Let mx : Z := match zmax_list (dkeys (s_views s)) with Some m => m | None => 0%Z end.
  Let offset : Z := (mx + 1)%Z.
  Let extra : list Z := map (fun i => (offset + Z.of_nat i)%Z) (seq 0 (length parts)).
  Let to : list (Z * Z) := map (fun ca => (fst ca, snd ca + offset)%Z) assign.

  Lemma some_view : exists v, In v (dkeys (s_views s)).
  Proof.
    pose proof (si_ne _ _ H) as Hne. destruct (s_outs s) as [|c o] eqn:E; [congruence|].
    destruct (dim_for_ex n s c H) as [v [w [a [_ [Ew _]]]]]; [rewrite E; left; reflexivity|].
    exists v. eapply dget_Some_in; exact Ew.
  Qed.
  Lemma mx_max : zmax_list (dkeys (s_views s)) = Some mx /\ forall v, In v (dkeys (s_views s)) -> (v < offset)%Z.
  Proof.
    unfold offset, mx. destruct (zmax_list (dkeys (s_views s))) as [m|] eqn:E.
    - split; [reflexivity|]. apply zmax_list_spec in E. destruct E as [_ E]. intros v Hv. specialize (E v Hv). lia.
    - exfalso. apply zmax_list_None in E. destruct some_view as [v Hv]. rewrite E in Hv. destruct Hv.
  Qed.
  Lemma in_extra v : In v extra <-> exists i, (i < length parts)%nat /\ v = (offset + Z.of_nat i)%Z.
  Proof.
    unfold extra. rewrite in_map_iff. split; [intros [i [<- Hi]]; apply in_seq in Hi; exists i; split; [lia|reflexivity]|].
    intros [i [Hi ->]]. exists i. split; [reflexivity|]. apply in_seq. lia.
  Qed.
  Lemma fst_to : map fst to = map fst assign.
  Proof. unfold to. rewrite map_map. reflexivity. Qed.
  Lemma in_to c vb : In (c, vb) to <-> exists k, In (c, k) assign /\ vb = (k + offset)%Z.
  Proof.
    unfold to. rewrite in_map_iff. split.
    - intros [[c' k] [E Hin]]. simpl in E. injection E as <- <-. eauto.
    - intros [k [Hin ->]]. exists (c, k). auto.
  Qed.

  Lemma take_prep : exists ws, append_views (s_X s) seeds offset parts (s_views s) = Ok ws /\
    tinv n extra (set_views s ws) /\ movable extra (set_views s ws) to /\
    (forall c, dim_for (set_views s ws) c = dim_for s c) /\ fresh_view seeds offset parts ws.
  Proof.
    destruct HF as [F1 [F2 [F3 F4]]]. destruct mx_max as [Emx Hmx].
    destruct (append_views_total n seeds parts [] s offset (sinv_tinv _ _ H) Hmx F4) as [ws [E [T [O [L F]]]]].
    exists ws. split; [exact E|]. cbn [app] in T. fold extra in T. split; [exact T|]. split; [|split; [|exact F]].
    - split; [rewrite fst_to; exact F1|]. intros c vb Hin. apply in_to in Hin. destruct Hin as [k [Hin ->]].
      specialize (F3 c k Hin). split; [|split].
      + apply in_extra. exists (Z.to_nat k). lia.
      + cbn [s_outs set_views]. apply F2. change c with (fst (c, k)). apply in_map. exact Hin.
      + intros va Hva Hx. apply in_extra in Hx. destruct Hx as [i [_ ->]].
        change (s_zv (set_views s ws)) with (s_zv s) in Hva.
        assert (Hin' : In (offset + Z.of_nat i)%Z (dkeys (s_views s))).
        { apply (si_views _ _ H). eapply crp_rows_counts; [apply (si_crp _ _ H)|exact Hva]. }
        apply Hmx in Hin'. lia.
    - intros c. unfold dim_for. change (s_zv (set_views s ws)) with (s_zv s). cbn [s_views set_views].
      destruct (dget c (s_zv s)) as [v|] eqn:Ez; [|reflexivity].
      rewrite O; [reflexivity|]. apply Hmx, (si_views _ _ H). eapply crp_rows_counts; [apply (si_crp _ _ H)|exact Ez].
  Qed.

  Lemma take_post ws s' : append_views (s_X s) seeds offset parts (s_views s) = Ok ws ->
    tinv n extra s' -> moves to (set_views s ws) s' -> fresh_view seeds offset parts ws ->
    (forall c, dim_for (set_views s ws) c = dim_for s c) ->
    taken n seeds assign parts s s' /\ length (s_views s') = length parts /\ (onto assign parts -> sinv n s').
  Proof.
    destruct HF as [F1 [F2 [F3 F4]]]. destruct mx_max as [Emx Hmx]. intros E T M F Hd.
    assert (Hzv : forall c k, In (c, k) assign -> dget c (s_zv s') = Some (k + offset)%Z).
    { intros c k Hin. rewrite (ms_zv _ _ _ M).
      assert (Et : dget c to = Some (k + offset)%Z).
      { apply dget_In_NoDup; [unfold dkeys; rewrite fst_to; exact F1|]. apply in_to. eauto. }
      rewrite Et. reflexivity. }
    assert (Hviews : forall v, In v (dkeys (s_views s')) <-> In v extra).
    { intros v. rewrite (ti_views _ _ _ T). split; [|auto]. intros [Hc|Hx]; [|exact Hx].
      apply crp_counts_rows in Hc; [|apply (ti_crp _ _ _ T)]. destruct Hc as [c Hc].
      assert (Ho : In c (s_outs s)).
      { destruct (ms_data _ _ _ M) as [Eo _]. cbn [s_outs set_views] in Eo. rewrite <- Eo. apply (ti_zv _ _ _ T).
        eapply dget_Some_in; exact Hc. }
      apply F2 in Ho. apply in_map_iff in Ho. destruct Ho as [[c' k] [Ec Hin]]. simpl in Ec. subst c'.
      change (dget c (s_zv s') = Some v) in Hc. rewrite (Hzv c k Hin) in Hc. injection Hc as <-.
      apply in_extra. specialize (F3 c k Hin). exists (Z.to_nat k). lia. }
    split; [constructor|split].
    - apply (ms_data _ _ _ M).
    - apply (ms_grid _ _ _ M).
    - apply (ms_alpha _ _ _ M).
    - exists offset. split; [exact Hmx|]. split; [intros v; rewrite Hviews; apply in_extra|]. split; [exact Hzv|].
      intros i part Hi. destruct (F i part Hi) as [w [Ew [Rw [Aw [Gw _]]]]].
      assert (Hil : (i < length parts)%nat) by (apply nth_error_Some; congruence).
      assert (Hin : In (offset + Z.of_nat i)%Z (dkeys (s_views s'))) by (apply Hviews, in_extra; eauto).
      apply in_dkeys_Some in Hin. destruct Hin as [w' Ew']. exists w'. split; [exact Ew'|].
      destruct (ms_view _ _ _ M _ _ Ew') as [w1 [E1 [C1 G1]]]. cbn [s_views set_views] in E1.
      assert (w1 = w) by congruence. subst w1. unfold v_rows in *. rewrite C1, G1.
      rewrite (F4 part) in Rw by (eapply nth_error_In; exact Hi). auto.
    - intros c a Ea. rewrite <- Hd in Ea. exact (ms_dim _ _ _ M c a Ea).
    - assert (P : Permutation (dkeys (s_views s')) extra).
      { apply NoDup_Permutation; [apply (ti_nv _ _ _ T)| |exact Hviews].
        unfold extra. apply FinFun.Injective_map_NoDup; [intros x y Hxy; lia|apply seq_NoDup]. }
      apply Permutation_length in P. unfold extra, dkeys in P. rewrite !map_length, seq_length in P. exact P.
    - intros Hon. apply (tinv_sinv n extra s' T). intros v Hv. apply in_extra in Hv. destruct Hv as [i [Hi ->]].
      destruct (Hon i Hi) as [c Hc]. exists c. rewrite (Hzv c _ Hc). f_equal. lia.
  Qed.

  Lemma take_ok s' : (forall c a, dim_for s c = Ok a -> re a = true) ->
    take_partitions re seeds s assign parts = Ok s' -> taken n seeds assign parts s s' /\ length (s_views s') = length parts /\
      (onto assign parts -> sinv n s').
  Proof.
    intros Hre. unfold take_partitions. destruct mx_max as [Emx _]. rewrite Emx. fold offset. fold to.
    destruct take_prep as [ws [E [T [M [Hd F]]]]]. rewrite E. cbn [rbind].
    destruct (move_columns re (set_views s ws) to) as [s1 [[]|e]] eqn:Em; cbn [rbind]; [|discriminate].
    destruct (move_columns_ok n re extra to _ s1 T M) as [T1 M1]; [|exact Em|].
    { intros c a _ Ea. rewrite Hd in Ea. exact (Hre c a Ea). }
    destruct (take_post ws s1 E T1 M1 F Hd) as [A [L B]].
    destruct (length (s_views s1) =? length parts)%nat; [|discriminate]. intros Es. injection Es as <-. auto.
  Qed.

  Lemma take_total : (forall a, eager a -> re a = true) -> (forall c a, dim_for s c = Ok a -> eager a) ->
    exists s', take_partitions re seeds s assign parts = Ok s' /\
      forall c a, dim_for s c = Ok a -> exists a', dim_for s' c = Ok a' /\ asim a a'.
  Proof.
    intros Hre He. unfold take_partitions. destruct mx_max as [Emx _]. rewrite Emx. fold offset. fold to.
    destruct take_prep as [ws [E [T [M [Hd F]]]]]. rewrite E. cbn [rbind].
    destruct (move_columns_total n re extra to Hre _ T M) as [s1 [Em Hs]].
    { intros c a _ Ea. rewrite Hd in Ea. exact (He c a Ea). }
    rewrite Em. cbn [rbind].
    destruct (move_columns_ok n re extra to _ s1 T M) as [T1 M1]; [|exact Em|].
    { intros c a _ Ea. rewrite Hd in Ea. exact (Hre a (He c a Ea)). }
    destruct (take_post ws s1 E T1 M1 F Hd) as [_ [L _]]. rewrite L, Nat.eqb_refl. exists s1. split; [reflexivity|].
    intros c a Ea. apply Hs; [|rewrite Hd; exact Ea]. rewrite fst_to. apply (proj1 (proj2 HF)).
    apply (si_zv _ _ H). unfold dim_for in Ea. destruct (dget c (s_zv s)) eqn:Ez; [|discriminate]. eapply dget_Some_in; exact Ez.
  Qed.
End Take.
